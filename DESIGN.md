# Machine-checked model of marxs: design

Source: Chandra-MARX/marxs at the pinned commit in `/repo` (python, read as text, never run).
Prover: Coq 8.16.1, standard library only.

## 1. Layout

`rocq/theories` holds three kinds of files per area `X`:

* `X_Model.v`: executable Gallina definitions mirroring the code branch by branch. Every definition cites the file
  and lines of `/repo/marxs` it models and says where it simplifies. No proofs.
* `X_Proofs.v`: lemmas.
* `X_Props.v`: the property theorems, each closed by `exact <lemma>` with `Print Assumptions` beneath it, and next to
  each an `Example` with a concrete case meeting its hypotheses.

A specification that a theorem is stated against is a short separate definition in the model file, marked `Spec`,
that does not use the helpers of the modelled function.

Naming: a theorem that covers only part of a property ends in `_partial`; a theorem that shows the unchanged code
violates a property ends in `_refuted` and exhibits a witness.

## 2. Modelling conventions

* Exceptions are values: `result A := Ok a | Err e`, with one constructor per python exception class.
* Bookkeeping code (tables, containers, dictionaries, index arithmetic, codecs) is modelled on `list`, `nat`, `Z`,
  `Q`, `string`; it computes with `vm_compute`.
* Geometry is modelled on the real numbers of the standard library. Floating point rounding is not modelled; `nan` is
  modelled explicitly (`option R`, `None` = nan) where the code produces or tests it. Comparisons with tolerance
  (`np.isclose`, `np.allclose`) are modelled with their documented formula where they decide a branch.
* Random numbers and calls to other libraries are arguments of the model functions (draws, splines, cumulative
  distribution functions, lens tables), universally quantified in the theorems.
* numpy vectorisation: operations that act row by row are modelled for one row and lifted with `map`; where rows
  interact (masks, cumulative sums, squeeze) the whole array is modelled.
* Mutable objects become values threaded through a step function; shared (class level) dictionaries are part of the
  state.

## 3. Trusted base

1. Coq's kernel. `coqchk -o` on all compiled `*_Props` files accepts them and lists the four axioms of item 2 and nothing else
   (no type-in-type, no unchecked fixpoints or inductive types).
2. The axioms `Print Assumptions` lists. Theorems over `nat`, `Z`, `Q`, lists: none (closed under the global context).
   Theorems over `R`: the axioms of the standard library's real numbers only,
   `ClassicalDedekindReals.sig_forall_dec`, `ClassicalDedekindReals.sig_not_dec`,
   `FunctionalExtensionality.functional_extensionality_dep` (and `Classical_Prop.classic` where trigonometric lemmas
   of the library pull it in).
3. The reading of the python code. Nothing ties the model to the code except the citations.
4. Behaviour of numpy, astropy, scipy, transforms3d as documented (column assignment with masks, `cumsum`,
   `searchsorted`, `diff`, `nonzero`, `reshape`, `einsum`, `compose`/`decompose44`).

5. Contracts of numerical routines that are arguments of the model: splines and interpolators pass through their nodes,
   `np.linalg.inv` returns the inverse, an optimizer returns a minimum on its interval, `np.percentile` and clipped
   statistics are arbitrary functions. A contract that a theorem needs is a hypothesis of this theorem, never an axiom.

The sources are listed with their theorems in `MANIFEST.json`; the `Print Assumptions` output under every theorem is part of
the build log.

Not modelled: floating point rounding, the byte level of files (FITS, ASCII, config files; what is written and read
back is modelled as a value), the C code called through `marx.py`, drawing by plotting libraries, astropy units (all
quantities are plain numbers in one unit), performance, warnings and log output.

How a refuted property is counted: if the unchanged code violates a property, the manifest says `partial`, a theorem
`..._refuted` exhibits the violation, and the strongest true restriction found is proved beside it. Section 5 lists
them all.

Wrong programs: `seeded/LOG.jsonl` has one line for each change that was made to a definition in a scratch copy, with the
theorems that stopped to compile. A change that nothing noticed led to a stronger theorem (listed as tightened) or is
explained in the line (no difference in behaviour).

## 4. Areas and properties

248 properties: 104 proved, 144 partial.

| area | files `<area>_*.v` | what is modelled | properties |
|---|---|---|---|
| Photons | Model, Proofs, Proofs2, Proofs3, Proofs4, Proofs5, Props | Photon tables and the processing of photons by optical elements. Models /repo/marxs/optics/base.py, /repo/marxs/base/base.py (add_output_cols), /repo/marxs/optics/baffles.py. General simplifications: numbers are rationals (no rounding), [nan] is [CNum None]; the dtype of a column is not modelled (a cell holds what was written to it); rows are identified by their index. | C01-C05, C10-C11, C72-C73 |
| Container | Model, Proofs, Props | Containers of simulation elements and monitors. Models /repo/marxs/simulator/simulator.py (BaseContainer, Sequence, KeepCol) and the keyword handling of /repo/marxs/base/base.py (MarxsElement.__init__, SimulationSequenceElement.__init__). | C05-C08, C17, C69 |
| Shared | Model, Proofs, Props | State that is shared between objects: class level dictionaries and lists. Models /repo/marxs/base/base.py:249-286 (columns described by dictionaries), /repo/marxs/math/geometry.py:90-106, 284-292 and /repo/marxs/optics/grating.py:176-184, 201 (the [_geometry] dictionaries), /repo/marxs/optics/base.py:250-256 (construction of FlatStack). | C09, C42, C74 |
| Placement | Model, Proofs, Props | Placement of elements in containers: models Parallel and ParallelCalculated (/repo/marxs/simulator/simulator.py:321-541), the moves of /repo/marxs/design/tolerancing.py:44-132 and /repo/marxs/design/uncertainties.py. | C12-C16, C49 |
| Position | Model, Proofs, Props | Position keywords: models /repo/marxs/base/base.py:292-336, /repo/marxs/math/utils.py:87-146 and the functions [compose] and [decompose44] of transforms3d.affines that the code uses. | C18 |
| Coords | Model, Proofs, Props | Homogeneous and Pluecker coordinates: models /repo/marxs/math/utils.py:10-84 and /repo/marxs/math/pluecker.py. Arrays of shape (N, 4) are lists of [v4]. | C19-C20 |
| Plane | Model, Proofs, Props | Flat geometries: models /repo/marxs/math/geometry.py:108-160 (named vectors of a pos4d matrix) and 201-281 (FinitePlane). One ray at a time; nan is [None]. | C21 |
| Cylinder | Model, Proofs, Props | Tubes: models /repo/marxs/math/geometry.py:378-621 (Cylinder). One ray at a time; nan is [None]. | C22 |
| Angles | Model, Proofs, Props | Angles: models /repo/marxs/math/utils.py:164-213. | C23-C24 |
| Rot | Model, Proofs, Props | Rotations and polarization vectors: models /repo/marxs/math/rotations.py and /repo/marxs/math/polarization.py. The code works on arrays row by row; the model treats one row. nan is [None]. | C25-C29, C76 |
| Sampling | Model, Proofs, Props | Draws from discrete distributions: models /repo/marxs/math/random.py:56-95, /repo/marxs/optics/grating.py:37-57, 78-96 and /repo/marxs/missions/mitsnl/catgrating.py:137-144. All random numbers are arguments. | C30, C32 |
| Poisson | Model, Proofs, Props | Arrival times: models /repo/marxs/source/basesources.py:35-77 (poisson_process). Units are left out: [T] is the exposure time, [rate] the product of rate and area; the exponential draws are an argument, in the order in which they are made. | C31 |
| Aperture | Model, Proofs, Props | Apertures: models /repo/marxs/optics/aperture.py:39-218 and /repo/marxs/math/geometry.py:344-356. One photon at a time; all random numbers (between 0 and 1) are arguments. | C33-C34, C77 |
| Grating | Model, Proofs, Props | Flat gratings: models /repo/marxs/optics/grating.py:99-301 (FlatGrating, CATGrating). One photon at a time, in Euclidean components (the fourth component of all directions is 0); nan is [None]. The selected order [m] and the wavelength are arguments. | C35-C36, C78-C79, C130 |
| Lens | Model, Proofs, Props | Lenses: models /repo/marxs/optics/mirror.py (PerfectLens, ThinLens). One photon at a time; nan is [None]. | C37, C80 |
| Detector | Model, Proofs, Props | Detectors: models /repo/marxs/optics/detector.py:18-117 (FlatDetector, CircularDetector). | C38 |
| Ccd | Model, Proofs, Props | Energy redistribution of a CCD: models /repo/marxs/optics/detector.py:195-202 (CCDRedistNormal.specific_process_photons). [sigma] is [sig_ccd] (interpolation in the table of widths), [draws] the standard normal numbers behind [norm.rvs], one per photon of the list. | C39 |
| Scatter | Model, Proofs, Props | Scattering: models /repo/marxs/optics/scatter.py. One photon at a time, random draws are arguments, nan is [None]. | C40 |
| Brewster | Model, Proofs, Props | Multi layer mirrors: models /repo/marxs/optics/multiLayerMirror.py. One photon at a time; nan is [None]. | C41, C81 |
| Marx | Model, Proofs, Props | The wrapper around the MARX C mirror: models /repo/marxs/optics/marx.py:185-202 (MarxMirror.__call__). The C code is an arbitrary list of output rows [cphoton]; directions and polarizations are abstract, with [parallel_transport] as an argument. - [join(..., keys='tag')] is the inner join of astropy: sorted by the key, all pairs with equal key. The table made from the C structure has no column "probability" (marx.py:170-174), so the joined table takes that column from the photons handed in. - [np.argsort] is not stable in numpy; here it is. The difference is only visible for repeated tags. - a polarization array of a length different from the table is refused by astropy (ValueError); before that numpy broadcasts arrays with one row. | C43 |
| Rowland | Model, Proofs, Proofs2, Props | Rowland tori: models /repo/marxs/design/rowland.py:78-542 (RowlandTorus, design_tilted_torus, double_rowland_from_channel_distance, add_offset_double_rowland_channels). One point at a time. [np.linalg.inv(pos4d)] is the argument [minv]; where its contract is needed it is a hypothesis. nan is [None]. | C44, C82-C85 |
| Grid | Model, Proofs, Props | Placement of elements on a torus: models /repo/marxs/design/rowland.py:545-886 (ElementsOnTorus.elempos, RectangularGrid, CircularMeshGrid, GratingArrayStructure). | C45-C46, C86-C88 |
| Tol | Model, Proofs, Props | Tolerancing runs: models /repo/marxs/design/tolerancing.py:26-41, 135-171, 223-450 and 453-549. | C47-C48, C50, C89-C90 |
| Rmf | Model, Proofs, Proofs2, Props | Response files: models /repo/marxs/reduction/ogip.py:46-80, 227-268, 318-466. | C51-C54, C58, C91-C92 |
| Osip | Model, Proofs, Props | Order sorting: models /repo/marxs/reduction/osip.py:62-207, 335-528 and /repo/marxs/reduction/ogip.py:16-39 (file names). | C55-C57, C93-C94 |
| Analysis | Model, Proofs, Proofs2, Props | Analysis of photon lists: models /repo/marxs/analysis/gratings.py:133-501, /repo/marxs/analysis/analysis.py:27-111 and /repo/marxs/analysis/coords.py. Sigma clipped statistics (astropy) are an argument. | C59-C61, C95-C101 |
| Viz | Model, Proofs, Props | Plotting helpers: models /repo/marxs/visualization/utils.py:29-329, /repo/marxs/visualization/x3d.py:251-281, 389-456, /repo/marxs/visualization/threejs.py:45-92 and /repo/marxs/visualization/threejsjson.py:82-98, 199-234. | C62-C66, C102-C107 |
| Meta | Model, Proofs, Props | Header (meta data) of photon lists: models /repo/marxs/base/base.py:93-191. | C67-C68, C75 |
| Mission | Model, Proofs, Props | CAT gratings, booms, filters, baffles and tables: models /repo/marxs/missions/mitsnl/catgrating.py:147-325, /repo/marxs/missions/arcus/boom.py, /repo/marxs/optics/filter.py, /repo/marxs/optics/baffles.py:30-55 and /repo/marxs/utils.py:59-100. Units are left out: all lengths in the same unit. | C70-C71, C108-C112 |
| PerPhoton | Model, Proofs, Props | Elements that are written for one photon at a time (/repo/marxs/optics/base.py:98-142 and 186-197): notions for statements about the model of Photons_Model. Simplifications: as there. | C72-C73 |
| Source | Model, Proofs, Props | Sources and pointing: models /repo/marxs/source/pointing.py, /repo/marxs/source/basesources.py:85-523 and /repo/marxs/source/labSource.py. Angles are in radian, units are left out; one photon at a time unless a list is shown. astropy's SkyOffsetFrame is modelled by the three rotations it is documented to apply; frames other than ICRS only where stated. | C113-C119 |
| Chandra | Model, Proofs, Props | Moving photons, Chandra pointing and detectors: models /repo/marxs/simulator/simulator.py:620-667, /repo/marxs/missions/chandra/dither.py, data.py, det_acis.py and the tube of /repo/marxs/optics/detector.py:78-117. Angles are in radian, lengths in mm, times in seconds; units are left out. | C120-C126, C129 |
| Fits | Model, Proofs, Props | Chandra file headers and column order: models /repo/marxs/missions/chandra/fitsheaders.py and /repo/marxs/missions/chandra/chandra_global.py:19-38. | C127-C128 |
| Arcus | Model, Proofs, Props | Arcus, first part: error budget, tilted grating bars, camera layout and alignment. Models /repo/marxs/missions/arcus/arcus.py:41-47, 142-176, 342-384, 425-455, 472-485, 521-547, /repo/marxs/missions/mitsnl/tolerances.py:56-97. Lengths in mm, angles in radian. Random draws are arguments. | C131-C135 |
| ArcusSpo | Model, Proofs, Props | Arcus, second part: mirrors, entrance windows and gratings. Models /repo/marxs/missions/arcus/spo.py:7-64, /repo/marxs/missions/athena/spo.py:30-51, 61-85, 106-145, /repo/marxs/missions/arcus/arcus.py:179-260, 263-277, /repo/marxs/missions/arcus/utils.py:14-17, /repo/marxs/missions/arcus/ralfgrating.py:22-156 (not the class RegularGrid, apart from its ranges, lines 148-151). Lengths in mm, angles in radian; tables are lists of rows. | C136-C139 |
| ArcusArf | Model, Proofs, Props | Arcus, third part: effective areas and defaults. Models /repo/marxs/missions/arcus/arfrmf.py:18-227 (not the class FiltersQE, which is an argument), /repo/marxs/missions/arcus/load_csv.py:35-62, /repo/marxs/missions/arcus/defaults.py:27-70. Energies in keV, lengths in mm, angles in radian. The conversion between energy and wavelength is [hc / e]. | C140-C143 |
| Lsf | Model, Proofs, Props | Line spread functions: models /repo/marxs/reduction/lsfparm.py:21-418. Sherpa and scipy are arguments: the cumulative profile of a component and the interpolation functions. Limits that Sherpa puts on parameters are left out. | C144-C149 |
| Bend | Model, Proofs, Props | Bent and chirped gratings: models /repo/marxs/design/bendgratings.py and the parts of /repo/marxs/optics/grating.py:209-220 and /repo/marxs/utils.py:16-56 that are used. The optimizer (scipy minimize_scalar), the spline (RectBivariateSpline) and the way of a photon through grating and detector are arguments. | C150-C152 |
| Hetg | Model, Proofs, Props | The HETG and the simple mirror of Chandra: models /repo/marxs/missions/chandra/hess.py and hrma_py.py. The design table (HESSdesign.rdb) is an argument, only the column with the location of the facets is written out as [hess_rings]. | C153-C155 |
| Lynx | Model, Proofs, Props | Lynx, AXIS and Athena: models /repo/marxs/missions/lynx/mirror.py, lynx/lynx.py, AXIS/AXIS.py, athena/athecat.py, the keyword handling of design/rowland.py and simulator/simulator.py they rely on, and Cylinder.from_rowland of math/geometry.py. Tables are arguments. | C156-C161, C230 |
| RayGrid | Model, Proofs, Proofs2, Props | Analysis of a grid of simulations of Arcus: models /repo/marxs/missions/arcus/analyze_grid.py. Statistics (astropy), reading and writing of files are arguments or values. | C162-C165 |
| Focus | Model, Proofs, Props | Best focus, resolving power by ray-trace and plot colors: models /repo/marxs/analysis/analysis.py:42-81, /repo/marxs/analysis/gratings.py:26-130, /repo/marxs/analysis/plots.py and /repo/marxs/design/rowland.py:39-75. Statistics and numerical optimization (astropy, scipy) are arguments. | C166-C169 |
| Shape | Model, Proofs, Props | Drawing of apertures and attributes of geometries: models /repo/marxs/math/geometry.py:21-160, 284-376 and /repo/marxs/optics/grating.py:175-184. | C170-C171 |
| CatStack | Model, Proofs, Props | The complete CAT grating: models /repo/marxs/missions/mitsnl/catgrating.py:257-375 (L2Diffraction, CATL1L2Stack) on top of the layers in Mission_Model, and the order selectors of /repo/marxs/missions/mitsnl/tolerances.py:14-53. One photon that hits the stack. Polarization is left out. | C172-C174 |
| Telescope | Model, Proofs, Props | A whole telescope: what a user builds from /repo/marxs/source (PointSource, FixedPointing), /repo/marxs/optics/aperture.py (RectangleAperture), mirror.py (PerfectLens) and detector.py (FlatDetector) and runs one after the other, /repo/marxs/simulator/simulator.py:42-49; and the function for it in /repo/marxs/analysis/run_helpers.py:17-49. One photon at a time; polarization is left out behind the pointing. [None]: nan. | C175-C176 |
| Coating | Model, Proofs, Props | Multi layer coatings: models /repo/marxs/optics/multiLayerMirror.py:94-179 (MultiLayerEfficiency, MultiLayerMirror) on top of Brewster_Model. One photon that hits the mirror. The two files are read into lists of rows. | C177 |
| Assembly | Model, Proofs, Props | The assembled Arcus: models /repo/marxs/missions/arcus/arcus.py:280-339, 390-513 (filters, focal plane, detectors, the classes PerfectArcus, Arcus, ArcusForPlot, ArcusForSIXTE). Lengths in mm. | C178-C179 |
| Mirrors | Model, Proofs, Props | Whole mirrors of missions: models /repo/marxs/missions/lynx/mirror.py:37-53 (MetaShellMirror, used by Lynx and AXIS) and /repo/marxs/missions/athena/spo.py (aperture and SimpleSPOs of Athena; SPOChannelMirror is also used by Arcus). One photon at a time, random draws are arguments, nan is [None]. Polarization is left out. | C180-C181 |
| Ogip | Model, Proofs, Props | Headers of OGIP files: models /repo/marxs/reduction/ogip.py:83-182 (checks, ARF, PHAI), 227-249 (RMF), 270-316 (RMF.write) and 469-525 (RMF.from_Gauss_sigma). Of the columns only type and number of dimensions are kept. A method that changes a table and may fail returns the table as it is afterwards together with the result. astropy's reading and writing are arguments. Tables are ColOrKeyTables; for a plain table the only difference is a column name that is also a keyword. | C182-C186 |
| Wiggle | Model, Proofs, Props | Changing gratings and plotting tolerances: models /repo/marxs/design/tolerancing.py:26-41, 174-220, 552-707 and /repo/marxs/optics/grating.py:209-220. Of an element only the period and the order selector are kept. matplotlib is left out: a plot is the list of its lines and the texts. Tables are lists of rows; all rows have the same columns, and a table without rows has no lines. | C187-C190 |
| Scene | Model, Proofs, Props | Scenes and the output of the backends for plots: models /repo/marxs/visualization/x3d.py:78-248, 284-386, /repo/marxs/visualization/mayavi.py:158-180, /repo/marxs/visualization/threejs.py:40-43, 94-268, /repo/marxs/visualization/threejsjson.py:101-196, /repo/marxs/visualization/threejs_files/MARXSloader.js:60-74 and /repo/marxs/visualization/threejs_files/jsonschema.json:103-162. The geometry of an element is the list of points that it gives for a shape. Of a display dictionary the shape, the color and the opacity are kept. The libraries (x3d, mayavi, matplotlib's color maps, three.js) are left out: a scene is the list of what was added to it. | C191-C195 |
| Eff | Model, Proofs, Props | Tables of grating efficiencies: models /repo/marxs/missions/mitsnl/catgrating.py:44-144 on top of the tables in C112 and the draw in C32. Numbers are real numbers. scipy's RectBivariateSpline with k=1 (the default) is linear between the nodes in both directions; outside of the table it takes the value at the edge. The unit of the wavelength is not looked at; [deg]: factor from the unit of the angles to radian. | C196-C197 |
| Zero | Model, Proofs, Props | Responses for order 0 and input files of Arcus: models /repo/marxs/missions/arcus/arfrmf.py:232-280 ([mkrmf0]) and /repo/marxs/missions/arcus/load_csv.py. Numbers are real numbers. sherpa's NormGauss1D is a distribution function as in C147, and the units of the table of widths fit (energy in keV, width in eV); the two headers are left out (see C185). astropy's reading of files is an argument. | C198-C199 |
| Axis | Model, Proofs, Props | Detectors of the missions and the set-up of AXIS: models /repo/marxs/missions/AXIS/AXIS.py:106-233, the names of the detector columns in /repo/marxs/optics/detector.py, missions/lynx/lynx.py:88-94, 140-172, missions/athena/athecat.py:160-176 and missions/arcus/arcus.py:391-446. Elements are identified by the name of their class or variable; numbers are rationals in photon tables and reals in configurations. | C200-C201 |
| Report | Model, Proofs, Props | Plots and README for order sorting: models /repo/marxs/reduction/osip.py:210-394 (plots and what is left of apply_osip_all) and /repo/marxs/missions/arcus/arfrmf.py:283-317 (write_readme), with python's string.Template. A plot is the list of its curves with their labels; colors and line styles are left out. Text is ASCII. | C202-C203 |
| Spectro | Model, Proofs, Props | A spectrograph in the Rowland geometry: a flat grating of /repo/marxs/optics/grating.py:99-301 on the torus of /repo/marxs/design/rowland.py:78-307, followed by the circular detector of /repo/marxs/optics/detector.py:78-117 whose tube is made by /repo/marxs/math/geometry.py:430-463. One photon at a time; nan is [None]. The photon is already on the grating and flies to the focus; the selected order and the wavelength are arguments. | C204-C205 |
| AcisText | Model, Proofs, Props | Corners of the ACIS chips as text: models /repo/marxs/missions/chandra/det_acis.py:14, 27-29, 99-121 (ACISChip.chip_name, ACIS.get_corners) and the ACIS part of the table in /repo/marxs/missions/chandra/data.py:70-166. [Table.read(..., format='ascii')] is not modelled: the table is the list of its rows with the columns col1 and col4. [float] is exact and reads plain decimals only (no exponents, underscores, inf or nan: ValueError here). | C206 |
| MarxC | Model, Proofs, Props | Tables to and from the C structures of MARX: models /repo/marxs/optics/marx.py:80-183 (MarxMirror._table2c, _c2table, _process_photons_in_c), the decorator photonlocalcoords of /repo/marxs/optics/base.py:284-316, add_colpos of /repo/marxs/optics/aperture.py:19-27 and the arguments that marx.py:201-202 passes to parallel_transport. The C function marx_mirror_reflect is an argument: it gets the structure and returns a status and the changed structure. Numbers in C are exact; the two flags are booleans. A table is a list of rows; an element of a C array beyond its end (undefined in C) is IndexError. [np.argsort] is stable here. | C207-C208 |
| Instrument | Model, Proofs, Proofs2, Props | Photons in any instrument: models how the elements of /repo/marxs/optics (mirror.py, grating.py, scatter.py, filter.py, baffles.py, multiLayerMirror.py, detector.py) change a photon list through /repo/marxs/optics/base.py:144-211 and 12-51, with simulator/simulator.py:639-641 (Propagator) and simulator/simulator.py:42-49 (Sequence). The table has the columns dir, pos, polarization, energy, probability; other columns are left out here. [None]: nan. Random numbers and the values from order selectors are given for each photon that hits. The geometry of an element with position is a FinitePlane, that of a circular detector a Cylinder. | C209-C211 |
| Layers | Model, Proofs, Props | Stacks of elements in one place, scatter, and the start of a simulation: models /repo/marxs/optics/base.py:218-281 (FlatStack) for the elements of Instrument_Model, one photon at a time (C210 says why this is enough for the elements; the vectorized stack is in Photons_Model). The layers are elements with the position of the stack, not baffles. [entry]: source/pointing.py:147-160 followed by optics/aperture.py:68-78. | C212-C215 |
| Setup | Model, Proofs, Props | Keywords, docstrings and plot properties: models /repo/marxs/missions/arcus/boom.py:37-59, /repo/marxs/optics/scatter.py:44-47 and 99-107, optics/filter.py:45-46 and 86-88, /repo/marxs/base/base.py:29-64 (DocMeta), /repo/marxs/visualization/utils.py:19-26 and visualization/mayavi.py:236-248. Attributes of objects are dictionaries; units are left out. | C216-C219 |
| Whole | Model, Proofs, Proofs2, Props | Statements about whole instruments: all code is that of Instrument_Model (optics/mirror.py, grating.py, scatter.py, filter.py, baffles.py, detector.py, base.py) and Layers_Model; this file has the notions the statements need (rays, weights, rigid motions). | C220-C222 |
| Chain | Model, Proofs, Props | Several elements in a row: /repo/marxs/optics/multiLayerMirror.py:44-91 (two mirrors, as in tests/test_optics/test_multiLayerMirror.py), /repo/marxs/optics/grating.py:233-277 (two gratings) and /repo/marxs/optics/filter.py:48-53 (global filters). Only specifications are here; the elements are those of Instrument_Model. | C223-C225 |
| Mosaic | Model, Proofs, Props | Elements side by side: /repo/marxs/simulator/simulator.py:206-440 (Parallel: elements with numbers, called one after the other, 42-49) for the elements of Instrument_Model; /repo/marxs/optics/base.py:205-209 writes the number of the element and the position for the photons that hit. One photon at a time ([mosaic]; C210 says why this is enough); tables run through [run]. The column of element numbers is an integer next to the photon. | C226-C227 |
| Version | Model, Proofs, Props | The version in the header of photon lists: models /repo/marxs/base/base.py:93-97 and 118-131 (the regular expression for the version, TagVersion) and /repo/marxs/_astropy_init.py:6-9. python's [re] is modelled as a matcher with backtracking: repetitions take as many letters as possible first and give back letters if the rest does not match. Simplification: \d and \w only for ASCII letters (python's re also takes other digits and letters). | C228-C229 |
| Area | Model, Proofs, Props | Effective areas of whole instruments: the photon list of Instrument_Model as seen by /repo/marxs/analysis/gratings.py:333-363 (Analysis_Model); this file only has the notions the statements need. | C233 |
| Defocus | Model, Proofs, Props | Detectors out of focus: notions for statements about Instrument_Model (optics/mirror.py:53-82, detector.py) and /repo/marxs/analysis/analysis.py:27-38 (mean_width_2d in Analysis_Model). | C234 |
| Align | Model, Proofs, Props | design/tolerancing.py:107-132 [moveelem] on the elements of Instrument_Model: [pos4d] of one element is multiplied from the left with the matrix of a shift and of three rotations, and every method of the element that looks at [pos4d] (or its inverse) later uses the new one. Simplifications: as in Instrument_Model; the element was not moved before ([pos4d_orig] is the [pos4d] it was made with); inverse matrices ([np.linalg.inv]) are exact. | C235 |
| Overlap | Model, Proofs, Props | Overlapping orders: notions for statements that put together the spectrograph of Instrument_Model (optics/grating.py, detector.py, design/rowland.py) and the windows for order sorting of Osip_Model (reduction/osip.py:62-147, 434-437, 523-528). Simplification: the energy that a CCD measures is one number, given from outside. | C236 |
| Tilt | Model, Proofs, Props | Tilted transmission gratings: notions for statements on optics/grating.py:99-301 [FlatGrating], [CATGrating] after design/tolerancing.py:107-132 [moveelem]. Simplifications: as in Align_Model. | C238 |
| Origin | Model, Proofs, Props | Making sources and pointings, and the header they write: models /repo/marxs/source/basesources.py:156-163, 252-279, 293-302, 325-329, 341-342, 369-372, 409-413, 443-448, 463-465, 502-504 (__init__ of the sources, header of generate_photons, set_pos), /repo/marxs/source/labSource.py:33-37, 54-56, 82-92 and 131-133, /repo/marxs/source/pointing.py:30-41, 86-92, 147-173, 192-194, /repo/marxs/missions/chandra/dither.py:27-31. Values of keywords are of any type, [None] is python's None; the conversion of coordinates by astropy, [isscalar], [len], [abs] and the geometry of an element are arguments. Columns are names with units; numbers in the columns are in Source_Model. | C239-C240 |
| Observe | Model, Proofs, Props | Header of an observation with Chandra and ACIS: models /repo/marxs/missions/chandra/chandra_global.py:14-17 (Chandra.process_photons), /repo/marxs/missions/chandra/det_acis.py:46-54 (header written by ACISChip) and det_acis.py:152-159 (ACIS.process_photons), with the choice of chips in det_acis.py:97 for all integers. What the detector does with the photons is in Chandra_Model; here a chip either has photons or not. | C241 |
| Width | Model, Proofs, Props | Energy resolution of a detector: models /repo/marxs/optics/detector.py:156-202 (CCDRedistNormal: table of widths, sig_ccd, cdf, interval and the detected energy) with real numbers; [np.interp] as in Analysis_Model (for ascending energies), the distribution of the standard normal law [Phi] and its quantiles are arguments. Energies are in keV. Ccd_Model has the columns of the photon list. | C242 |
| Ruling | Model, Proofs, Props | Wrong period or wrong direction of the grooves: notions for statements on optics/grating.py:186-266 (FlatGrating, CATGrating), design/tolerancing.py:175-199 [varyperiod] and the energies of Overlap_Model. Simplifications: as in Instrument_Model. | C243 |
| Picture | Model, Proofs, Props | Pictures of extended sources: notions for statements that put together /repo/marxs/source/basesources.py (RadialDistributionSource, DiskSource, SphericalDiskSource, GaussSource in Source_Model), /repo/marxs/source/pointing.py (FixedPointing, JitterPointing) and the telescope of Telescope_Model. Simplifications: as there. | C244 |
| Fold | Model, Proofs, Props | Flat mirrors that are tilted, in pairs, and in a converging beam: notions for statements about the model of /repo/marxs/optics/multiLayerMirror.py:52-57 (Brewster_Model). Simplifications: as there. | C245 |
| Stop | Model, Proofs, Props | Baffles in a row and in the beam of a lens: notions for statements about the elements of Instrument_Model (/repo/marxs/optics/baffles.py:25-28 with optics/mirror.py:53-82 and base.py:144-211); no further code. | C246 |
| Screen | Model, Proofs, Props | Spectra on a flat detector parallel to a transmission grating: notions for statements on optics/grating.py:186-266 (FlatGrating, CATGrating) and optics/detector.py (FlatDetector). Simplifications: as in Instrument_Model; no new code is modelled here. | C247 |
| Qmatrix | Model, Proofs, Props | The matrix that /repo/marxs/math/polarization.py:87-88 ([Q_reflection], behind the check that always raises, see Rot_Model) computes for one photon. Simplification: one photon instead of an array; a matrix of nans (division by zero) is [None]. | C248 |
| Vec | Model, Proofs | Vectors and matrices over the real numbers: the numpy operations used by the geometric code. Nothing here is specific to marxs except where cited. Floating point rounding is not modelled. |  |

`Base.v` has dictionaries, results and exceptions for all areas. Areas build on each other: geometry (`Vec`, `Coords`,
`Plane`, `Cylinder`, `Rot`, `Angles`) below optics (`Aperture`, `Grating`, `Lens`, `Detector`, `Scatter`, `Brewster`),
those below missions (`Mission`, `Chandra`, `Arcus*`, `Hetg`, `Lynx`, `CatStack`) and whole instruments (`Telescope`).

Proof methods: photon tables, containers, files and keyword handling by induction on lists, trees and histories of
calls; geometry by real algebra (`ring`, `field`, `nra`) on explicit coordinates; angles by division with remainder by
2 pi; random draws as universally quantified arguments, probabilities as lengths of intervals of draws; loops with fuel,
the theorem says which amount of fuel suffices or that none does.

## 5. Where the code does not do what is said

Every line gives the exact condition under which the property holds, or says that it never does.

* **C03** Bad probability factors are rejected. Factors below 0 or above 1 are rejected (proved for all elements); false for nan, which is accepted (refutation with witness). Theorems: `C03_nan_factor_refuted`.
* **C06** Searching an instrument by class finds every match. Soundness for every tree. Completeness with stop_at_first=False holds if no matching element sits inside another match; false in general because the option has no effect (refutation). Theorems: `C06_search_complete_refuted`.
* **C09** Default values of output columns do not depend on history. True for columns given by name for any history; false for columns given as dictionaries with a default value (refutations). Theorems: `C09_default_value_refuted`, `C09_second_call_refuted`.
* **C12** Elements of a Parallel container get consecutive ids and the requested positions. Proved for element matrices without shear; a sheared element matrix is accepted and its shear is dropped (refutation). Theorems: `C12_shear_refuted`.
* **C14** Moving the center of a container does not move its elements. True exactly if the change commutes with the container's own position (for example translations of an unrotated container); false in general (refutation). Theorems: `C14_refuted`.
* **C16** A normal specification given as a point makes elements face that point. The code computes the vector from the point to the element, so elements face away from the point (proved for all inputs); centers and the line of the normal are right. Theorems: `C16_facing_refuted`.
* **C19** Euclidean and homogeneous coordinates convert losslessly. Exact up to the tolerance with which h2e recognises normalized points: w within about 1e-5 of 1 is not divided out (refutation of exactness, bound on the error). Theorems: `C19_points_exact_refuted`.
* **C23** Angle interval test. True for different borders; equal borders mean the full circle in the code (refutation of the literal reading). Theorems: `C23_equal_borders_refuted`.
* **C27** Q_reflection works on valid input. False: the shape check is inverted into always raising; proved for every input. Theorems: `C27_refuted`.
* **C30** Random numbers follow the requested histogram. A uniform draw of exactly 0 selects the first bin of the internal order, which has no probability (C30_zero_refuted). Everything else is proved for all draws above 0 and for any internal order of the bins. Theorems: `C30_zero_refuted`.
* **C31** Poisson arrival times. Refuted in general: if fewer than 1/1.1 photons are expected in the (remaining) exposure the batch size is int(...) = 0 and the while loop never ends (C31_hangs_refuted, C31_stuck_refuted). When the function returns, the result is exactly the list of arrivals before the end of the exposure. Theorems: `C31_hangs_refuted`, `C31_stuck_refuted`.
* **C36** Sign convention of grating orders. The docstring says that positive orders are displaced along the local e_z; the code displaces along the local e_y for groove angle 0 (refuted with order 1 at normal incidence, proved along e_y in general). Turning by pi with the opposite order gives the same direction. Theorems: `C36_direction_refuted`.
* **C38** Detector pixels cover the chip. False if the chip size is not a multiple of the pixel size: the code rounds the number of pixels and only warns. Then coordinates exceed the range by up to a quarter pixel (proved bound, tight). Proved exactly for multiples. Theorems: `C38_range_refuted`.
* **C39** Detected energies belong to the photon. CCDRedistNormal returns energies for all photons instead of those that hit; writing them raises ValueError whenever some but not all photons of a list of two or more hit. Proved for the case that all hit. Theorems: `C39_any_hit_refuted`.
* **C41** Brewster mirror. s and p components of the new polarization are built from squared amplitudes, so a derived class with non-zero p reflectivity does not keep the relation of components (refuted); C41_components_partial gives the relation for all photons and reflectivities: with complete reflection it is kept exactly for pure s or p polarization and for equal parts. All else proved; normal incidence gives nan. np.linalg.inv is an argument with its contract as hypothesis. Theorems: `C41_components_refuted`.
* **C42** Geometries are independent. Existing geometries keep their parameters except for the groove angle of a shared geometry object; false in general (two refutations). Theorems: `C42_leaks_to_new_geometry_refuted`, `C42_shared_groove_angle_refuted`.
* **C43** External mirror keeps bookkeeping right. False as stated: the column probability of the joined table already is the probability handed in, so it is squared (C43_probability_once_refuted; right only for probabilities 0 and 1). A list of two or more photons of which the C code drops one fails in the transport of the polarization. The C code is an arbitrary list of rows. Theorems: `C43_probability_once_refuted`.
* **C45** Rectangular arrays cover the requested range symmetrically. False for equal limits: the documentation gives them as the way to place one element, but np.arange(p, p, d) is empty. Proved for lower limit < upper limit. Theorems: `C45_one_element_refuted`.
* **C46** Ring arrays do not overlap. False as stated: element_angle is d / (2 pi r) instead of d / r, so elements on narrow segments overlap. Proved with the extra condition d1 (1 - 1/2pi) <= d0 dphi / 2, and a general lower bound n/(n+1). Distances are measured along the arc. Theorems: `C46_no_overlap_refuted`.
* **C50** varyattribute is all-or-nothing. False: attributes before the missing one (and elements before the failing one) are already changed (refutation). ValueError in all cases and no new attribute are proved; for one attribute of one element nothing is changed. Theorems: `C50_all_or_nothing_refuted`.
* **C52** Compact and full RMF agree. False for a first channel other than 1 (rmf subtracts 1 instead of TLMIN; proved shift), for rows without a group (ValueError) and for fixed length arrays (the padding is returned). Proved for first channel 1 and rows made by arr_to_rmf_matrix_row with at least one group. Theorems: `C52_other_first_channel_refuted`.
* **C53** Writing an RMF does not change what it means. False if no row has more than one group, the usual case: squeeze turns arrays into numbers which full_rmf indexes (every row with a group fails). Proved if a row has two or more groups, no column is constant and values are exact in single precision. Theorems: `C53_refuted`, `C53_single_row_refuted`.
* **C54** Column-or-keyword tables return what was stored. False: a constant is stored as keyword, and a keyword hides every array assigned later. Proved if the last value is constant or none was before. Assignment to single elements of a column is not modelled. Theorems: `C54_refuted`.
* **C55** Order-sorting window in two notations. Proved for subclasses that implement osip_tab. False for subclasses that implement osip_range (FixedFractionOSIP): osip_tab then returns E + upper bound instead of upper bound - E. Theorems: `C55_tab_from_range_refuted`, `C55_upper_width_refuted`.
* **C56** Order-sorting can be re-applied. Proved for ARFs and factors that vary over the bins and nonzero first factors. False in general: a zero factor turns the area into nan, and a constant factor stored as keyword hides the factors of later calls (see C54). Theorems: `C56_zero_refuted`, `C56_third_refuted`.
* **C60** Photons in the sub-aperture. Proved up to the relative tolerance 1e-5 of np.isclose for central angles in [0, 2 pi]. False exactly: photons outside of max_ang are marked (rtol of np.isclose), and for a negative ang_0 the center of the sector is not found. Theorems: `C60_too_wide_refuted`, `C60_negative_center_refuted`.
* **C63** Combining triangulations keeps shapes. False in general: the cumulative sum is shifted by the first size instead of starting at 0, so indices are wrong as soon as sizes differ. Proved for equal sizes (all uses in marxs), and that the offsets are right only then. Theorems: `C63_mixed_refuted`, `C63_missing_point_refuted`.
* **C64** Colors convert to hex without mixing channels. Integers proved. False for floats: the fraction of red and green leaks into the next channel, (0.5, 0, 0) becomes 0x7f8000. Proved for floats when red and green are multiples of 1/255. Theorems: `C64_floats_refuted`.
* **C67** Version tags carry everything the user gave. True for all keywords except ORIGIN and CREATOR, which are dropped (refutation for all inputs). Theorems: `C67_origin_refuted`.
* **C70** CAT grating efficiency model. False for L2 with deep bars: the projected shadow is not limited, so the probability becomes negative. Proved: exactly when, and not for the default dimensions. Everything else is proved. Theorems: `C70_l2_negative_refuted`.
* **C72** Elements written for one photon at a time can add output columns. False for the unchanged code as claimed: proved that every such call raises when a declared column is missing. Proved for photon lists that have the declared columns already (and elements without local coordinate and id columns): every value is stored for its photon, the probability is multiplied and the position is the intersection point. Theorems: `C72_per_photon_output_refuted`.
* **C73** A failed call leaves the photon list unchanged. False for the unchanged code: witness. What holds: if the element's own function raises or an array has the wrong length nothing is changed, and in all cases photons that are not hit keep their values, no photon is lost and columns are only added. Theorems: `C73_exception_atomic_refuted`.
* **C74** A stack has all its layers. True for lists of equal length; otherwise layers are dropped (refutation). Theorems: `C74_missing_keywords_refuted`.
* **C75** Energy consistency check. The bound holds for all pairs; an empty photon list raises (refutation). Theorems: `C75_empty_refuted`.
* **C76** Keyword arguments of parallel_transport are used. False: the keywords are accepted and ignored; the matrix function itself uses them. Theorems: `C76_keywords_refuted`.
* **C77** Steps of a MultiAperture only see the photons of that aperture. The code runs the steps on all photons once per aperture (C77_steps_refuted); C77_steps_partial says what it does do. Theorems: `C77_steps_refuted`.
* **C82** Torus parameters of a point. False on the top and bottom circles (cos theta = 0, sign 0) and, for r >= 2 R, on part of the inner side. intersectvalid=False is a TypeError. Theorems: `C82_round_trip_refuted`.
* **C83** Tilted torus design. The claim about the center of the torus in the docstring holds only for beta = 2 alpha; the other claims are proved. Theorems: `C83_center_on_line_refuted`.
* **C85** Any number of spectral channels. Only the names 1, 2, 1m, 2m work; other names are an UnboundLocalError or take the torus of the previous channel. Theorems: `C85_any_number_refuted`.
* **C88** Mesh fills the circle. C88_rows_exact: n rows at - n d / 2 + i d, n the number of pitches that span the diameter. False: the first row is at - n d / 2 (the edge, not the center of the first element). C88_never_refuted: for every radius and pitch the first row has no mirror image and the upper edge is not covered; everything below rout - d is. C88_inside_outer_radius_partial holds. Elements do not overlap where a row does not cross the hole or crosses it at least one pitch away from the axis (C88_no_overlap_partial); otherwise the two halves of a row can overlap (C88_no_overlap_refuted). Theorems: `C88_never_refuted`, `C88_covers_refuted`, `C88_symmetric_refuted`, `C88_no_overlap_refuted`.
* **C90** Tolerancing by class wiggles the elements it split the instrument at. subclass_ok is not passed on to elements_of_class: objects of derived classes are not wiggled (refutation), so the whole study can run with nothing wiggled. Proved for subclass_ok=False. Theorems: `C90_subclasses_not_wiggled_refuted`.
* **C91** Number of channels in the header of a response matrix. DETCHANS of the matrix table is its number of rows (energy bins). Theorems: `C91_detchans_refuted`.
* **C92** Row of a response matrix for an energy or wavelength. Wavelengths are never found (proved for all tables with positive energies): the converted bounds are in reverse order. Assumes the documented behaviour of astropy that the second operand of a comparison is converted to the unit of the first. Theorems: `C92_wavelength_refuted`.
* **C95** Resolving power needs 20 photons. False at the boundary: with exactly 20 photons the result is nan ("> 20" instead of ">= 20"). Proved for fewer than 20 and more than 20. Theorems: `C95_twenty_refuted`.
* **C98** Facet table. The rows are proved; false that the plane is unchanged: facet_table renames the output columns of the plane that is passed in (and of the shared default plane). Theorems: `C98_plane_changed_refuted`.
* **C105** Rays are drawn once in their color. False for one color per point: scalar[0, :] should be scalar[:, 0]; IndexError if n is not N, else wrong colors. Proved for no color and one color per ray. Theorems: `C105_per_point_refuted`, `C105_wrong_color_refuted`.
* **C107** three.js output can be written. False: plot_obj is not defined, photons.meta() and data['runinfo'] on a list are TypeErrors, matdict[v] uses an undefined name. Proved which inputs can be written: containers without elements, files without photons, materials without properties, and no others. Theorems: `C107_container_refuted`, `C107_photons_refuted`, `C107_materialspec_refuted`.
* **C108** Rods are cylinders around their x axis. False: the Cylinder geometry has its axis along z, so the long zoom makes an elliptical tube and rays along z pass through the rod. What holds: rays at right angles to both axes that come from outside are found if and only if they pass through the surface of the rod (the reported point is on the tube, not on the rod). Theorems: `C108_rod_refuted`.
* **C109** Rods of a boom meet at the corners. Proved for four sides if l_diag is the length of the diagonal; false for other dimensions (angle 34.03 degrees and l_diag are fixed). Theorems: `C109_three_diagonals_refuted`, `C109_four_dims_refuted`.
* **C110** Filters do not make photons. nan from a filter function is not refused, everything else is proved. Theorems: `C110_nan_refuted`.
* **C111** Baffles are drawn in their plane. False: the drawing uses v_x and v_y, but the plane is spanned by v_y and v_z. Theorems: `C111_baffle_refuted`.
* **C114** Polarization is measured North through East. Proved for right-handed reference transformations (proper rotations). For left-handed ones the angle runs from North through West: C114_lefthanded_refuted (a case) and C114_lefthanded (all of them). Theorems: `C114_lefthanded_refuted`.
* **C115** Jitter deflects by the drawn angle. False with a reference_transform that moves the optical axis: the jitter axis stays in the y-z plane. Proved: for the default orientation the deflection is the drawn angle; for a pointing with any reference_transform this holds for all draws if and only if the optical axis is the x axis (C115_reference_partial); photons from anywhere are deflected by at most the drawn angle (C115_anywhere); rigidity for all. Theorems: `C115_reference_refuted`.
* **C116** Sources follow their specification. False only for the table of polarization angles: a negative first density, documented as ignored, is refused. SourceSpecificationError is shown as its base class Exception. Theorems: `C116_first_pol_refuted`.
* **C117** Disks and rings on the sky. The drawn radii are right, but the position is (d sin phi, d cos phi) in longitude and latitude, so the distance is smaller than d away from the main directions. Proved: distance at most d for d up to 90 degrees. Theorems: `C117_distance_refuted`.
* **C118** Laboratory sources. False for cones along +z or -z: the rotation axis is the zero vector and all directions are nan. Theorems: `C118_cone_refuted`.
* **C119** Extended sources are at their coordinates. False for SymbolFSource with coordinates that are not ICRS: the transformation to ICRS is applied twice. Theorems: `C119_F_refuted`.
* **C120** Photons move by the given distance. Distance proved for unit directions; the far laboratory source makes directions that are not, and its photons move too far. Theorems: `C120_farlab_refuted`.
* **C122** Dithered pointing is a fixed pointing at every time. Proved for constant roll and no reference transformation; a dithered roll is an UnboundLocalError, an empty list an IndexError, the reference transformation is ignored and write_asol is always an AttributeError. Theorems: `C122_roll_refuted`, `C122_empty_refuted`, `C122_reference_refuted`, `C122_write_asol_refuted`.
* **C123** Dither is along the axes of the spacecraft. The pattern is turned by twice the roll in the spacecraft frame, so the claim holds only for sin roll = 0. Theorems: `C123_axes_refuted`.
* **C125** ACIS chips are where they were measured. Chips, pixels and aimpoint are proved; any further keyword such as DetOffsetX makes the constructor fail (kwargs.pop with a list as key). Theorems: `C125_offset_refuted`.
* **C126** SKY coordinates are the position of the source. SKY coordinates turn by the roll angle in the wrong sense: true for sin roll = 0, turned by 2 roll otherwise. Theorems: `C126_sky_turned_refuted`, `C126_sky_refuted`.
* **C127** Completed headers. Existing keywords, times and idempotence are proved for content other than events; event headers, the default arguments and write_evt always fail, and the keywords of complete_O are never added. Theorems: `C127_events_refuted`, `C127_write_evt_refuted`, `C127_default_refuted`, `C127_observation_refuted`.
* **C128** Sorted columns. The calculated order is proved; the last line calls the table, so that sort_columns always raises TypeError. Theorems: `C128_return_refuted`.
* **C129** Pixels of a tube. Circular tubes are proved; on an elliptic tube pixel numbers are not lengths. Theorems: `C129_elliptic_refuted`.
* **C130** Blaze angle of tilted bars. Linear change is proved; the tilt is added to an absolute angle, so it is right for rays from one side only; the gradient is along the first local axis, which is across the bars only for groove angle 0. Theorems: `C130_other_side_refuted`, `C130_refuted`, `C130_groove_refuted`.
* **C132** Tilted bars are compensated when a grating is bonded. The claim that tilt and rotation cancel is false for blaze angles of the sign of the mirrored channels, where the tilt counts twice (C132_refuted), because the blaze angle is made positive before the tilt is added; true for tilts not larger than a positive blaze angle (C132_compensated_partial). If the number of gratings does not fit, the elements have been moved already (C132_mismatch). Theorems: `C132_refuted`.
* **C133** Layout of the Arcus camera. Positions, order, clearances and different gap positions are proved. The documented grouping 3-2-3 is false: from the middle out the chips are in groups of 2, 3 and 3 (C133_groups_refuted). Theorems: `C133_groups_refuted`.
* **C134** The circular detector is the circle of the CCDs. True if the configuration is the default one (C134_default_partial); for others the radius is still taken from the default configuration (C134_refuted). Theorems: `C134_refuted`.
* **C135** Every row of the alignment budget takes effect. True unless a row for the petals follows a row for the windows, which makes new windows without misalignment (C135_refuted). The order in the budget of the module is fine (C135_default). individual_with_tilt is an argument of the model of the dispatch. Theorems: `C135_refuted`.
* **C137** The entrance window of a channel covers its mirrors. The rectangle is centered on the optical axis in x, so the claim holds if the centers of the mirrors are symmetric in x (C137_covers_partial); a mirror off to one side can be outside (C137_offset_refuted). The grid is proved without this. Theorems: `C137_offset_refuted`.
* **C138** Photons are scattered once, by the channel of their mirror. True for up to 1000 mirrors in a channel (C138_once_partial); with more, the ids of channel 1 run into those of channel 2 (C138_many_refuted). Theorems: `C138_many_refuted`.
* **C139** Gratings are where the mechanical model has them. Positions, axes, periods, centers of windows and petals and the partition in windows are proved; the ids are those of the table only if the gratings of a window are numbered without gaps (C139_ids_partial, C139_ids_refuted). Theorems: `C139_ids_refuted`.
* **C140** A wavelength is on a CCD iff the diffracted ray hits one. True for optical axes not at x = 0 (C140_crosses_partial); for an axis at x = 0 np.sign is 0 and the answer is always false (C140_axis_refuted). With the foreshortened period the sine of the deflection by a tilted grating is right up to the second order (C140_tilted_partial, with the exact difference) and never exact for rays that are deflected (C140_tilted_refuted). Theorems: `C140_axis_refuted`, `C140_tilted_refuted`.
* **C141** Columns of the effective area. The columns are proved. The check of channels is made with the default configuration, so a channel of another configuration is refused with ValueError (C141_configuration_refuted). The column ONCCD is a count, not a transmission in 0..1. Theorems: `C141_configuration_refuted`.
* **C144** LSF model from one entry of a CALDB lsfparm table. Proved: the model, parameters, norm, and integral over the whole line; failure without EE_FRACS or components. Refuted (C144_other_columns_refuted): the expressions are not anchored, so a column GAUSS1_PARMS_ERR counts as a component. Theorems: `C144_other_columns_refuted`.
* **C145** CALDB to Sherpa and back. Proved for the sum of the components (C145_round_trip_partial). For the whole model the claim is false: sherpa2caldb always raises Exception because of the EE_FRACS factor (C145_whole_model). Theorems: `C145_whole_model_refuted`.
* **C146** Interpolated LSF agrees with the table at its nodes. Proved for tables with one width and no negative numbers (C146_nodes_partial); interpolators are arguments that are exact at nodes. False for negative positions (absolute value is taken), several widths (ValueError: RectBivariateSpline gets widths and wavelengths the wrong way round) and square tables (transposed): C146_negative_position_refuted, C146_several_widths_refuted, C146_square_transposed. Theorems: `C146_negative_position_refuted`, `C146_several_widths_refuted`.
* **C148** Empty lsfparm table for a model. Proved: acceptance, columns, shapes, box for ascending wavelengths, recognised names for GAUSSn/LORENTZn. Refuted: kind is not compared to the name (C148_kind_refuted); models from a table get _PARMS_PARMS columns (C148_same_columns_refuted). Theorems: `C148_kind_refuted`, `C148_same_columns_refuted`.
* **C149** Histogram fitted by fit_LSF. The histogram, its bins and errors are proved. Refuted (C149_range_refuted): np.arange drops the end of the range, so photons less than d_wave above the mean can be lost. All photons from d_wave below the mean to d_wave less one bin above it are counted (C149_range_partial). The Sherpa fit itself is not modelled. Theorems: `C149_range_refuted`.
* **C150** Bent gratings. Proved for gratings without shear that are not mirrored (positive determinant); acceptance (exactly positive radii) for all gratings without shear. Refuted for mirrored gratings: the decomposition turns the normal around but e_x keeps its direction, so the stack is two radii away from where it should be, while its elements are in the right place (C150_mirrored), and for gratings without attribute elements (AttributeError). The display settings and _geometry are not modelled. Theorems: `C150_mirrored_refuted`, `C150_single_refuted`.
* **C151** Chirp finder. Ray, table and center are proved for flat gratings; the optimizer and the ray trace are arguments. Refuted: the energy given to the finder is never used, the test photon has 1 keV; BendNumericalChirpFinder raises AttributeError because Cylinder has no phi_limits. Theorems: `C151_energy_refuted`, `C151_bent_refuted`.
* **C152** Chirped gratings. Nodes, number of points and order selector proved for a spline that passes through its points. Refuted: on a second chirp the order selector of before the first chirp comes back; on a bent grating the first local coordinate is an angle while the nodes are in units of the radius. Theorems: `C152_selector_refuted`, `C152_bent_refuted`.
* **C153** Facets of the HETG. Positions, sizes, groove angles and names proved for rows with orthonormal directions; positions for structures that are only shifted. Structures that are turned are turned around the hinge instead of the origin (C153_position, any position), so the hinge does change where their facets are (C153_hinge_refuted). Size goes by the ring in the first column, period by the number of the row: they agree for the 336 rows of the file (proved), refuted for tables sorted in another way; for a table with another number of rows every facet gets the whole list of periods. The numbers in the file itself are not in the model, only its column of rings. Theorems: `C153_hinge_refuted`, `C153_sorted_refuted`.
* **C155** Simple Chandra mirror. All claims on aperture and focus are proved (scatter is an argument). Refuted: position and zoom given by the user are always replaced, and pos4d is not accepted. Theorems: `C155_position_refuted`.
* **C156** Mirror apertures follow the table of metashells. Serial numbers are replaced by offset + position (MultiAperture overwrites id_num): with the default offset 0 the rings are 0..11 and not 1..12 (refuted); proved equal for offset 1 only. Drawing factors need two or more shells: with one shell the 0 is lost, with none the setup is an IndexError. Theorems: `C156_serial_refuted`, `C156_display_refuted`.
* **C157** Every photon gets the efficiency of the shell it passed. The rule by number in the photon list is proved. Together with the default numbering of the apertures (from 0) the first shell gets no factor and every other one that of its inner neighbour (refuted for the default, proved for id_num_offset=1). interp1d is an argument. Theorems: `C157_shell_refuted`.
* **C159** Keywords of structures on a torus are used or refused. Accepted keywords are proved in both directions (without position keywords for the converse). Position keywords are accepted but lost: Parallel.__init__ consumes them, OpticalElement.__init__ then makes a second geometry at the origin (refuted). Lynx (x_range) and Athena (opt_range) can not be made from their own default configuration, nor can their detector arrays (torus passed as positional argument); AXIS can. Theorems: `C159_position_refuted`, `C159_lynx_refuted`, `C159_athena_refuted`, `C159_shipped_refuted`, `C159_detector_refuted`.
* **C160** Chirp and misalignments reach the gratings they are meant for. Lynx and Athena look for elements whose class is exactly CATGrating, there are none in a stack: nothing is chirped (refuted); AXIS chirps all; with subclasses the L1 structures would be chirped, too (C160_subclasses). Misalignment makes new elements, so chirp and colors are lost (refuted). Copies of the configuration made before the budget is entered do not have it (refuted). Misalignments can be applied to every structure that can be built (C160_default); only the last of several global rows for one structure counts (C160_last). Theorems: `C160_lynx_refuted`, `C160_align_refuted`, `C160_copy_refuted`.
* **C162** The zero position is where the optical axis meets the detector. True when conf is the configuration whose radius the detector has. PerfectArcus.add_detectors takes the radius of the module's default configuration, zeropos that of conf: with another radius the axis is not at this angle (refuted). The axis must be within the radius, the channel offset at most 20 mm. Theorems: `C162_radius_refuted`.
* **C164** The grid table has one row per simulation and one column per order. For orders given as numpy array. With a list, as documented, 'orders != 0' is the constant True and the dispersed columns become columns per order that include the zeroth (refuted). Orders are read back when the header has no further keyword that begins with ORDER_ (refuted otherwise). C164_header: the other keywords are those of the first simulation. Theorems: `C164_list_refuted`, `C164_orders_refuted`.
* **C165** Grating angles from the position on the circular detector. tg_r is the inscribed angle and 0 for the zeroth order. tg_d of the zeroth order is not 0, since circ_y has the opposite sign (refuted); the zero position comes from the module's configuration, not from the argument (refuted); the length that turns the offset into an angle is not the distance to the grating (refuted). Theorems: `C165_cross_refuted`, `C165_conf_refuted`, `C165_length_refuted`.
* **C166** Best focus. Minimization by scipy is an argument that is only assumed to return a minimum. A try behind all photons fails with KeyError (refuted), photons that miss keep the coordinates of an earlier detector (refuted), the photon list is not changed although the documentation says so (refuted). Points further than 1e5 from the axis of the detector are not covered. C166_place_refuted says the same for each photon. Theorems: `C166_behind_refuted`, `C166_old_refuted`, `C166_side_effect_refuted`, `C166_place_refuted`.
* **C167** Resolving power per order. Sigma clipping, tracing and detectors are arguments. The documented 'FWHM / position' is the inverse of what is returned (refuted). Photons with probability 0 take part in the zero position for a detector that is passed in but not for the torus (refuted). Theorems: `C167_inverse_refuted`, `C167_zero_refuted`.
* **C168** Radius of the cone of a mirror shell. np.percentile is an argument. The plane must lie between mirror and focal point: further out the function fails or gives nan (refuted). Theorems: `C168_outside_refuted`.
* **C169** Plot styles tell orders apart. The color map is an argument. A negative maximum gives two colors less than needed (refuted). Theorems: `C169_negative_refuted`.
* **C170** Apertures are drawn where they are. False: a rectangular aperture with r_inner > 0 raises NotImplementedError when drawn; a range of angles between 2 pi and 2 pi + 1e-6 passes the check but is drawn as an almost closed hole; a wedge between two vertices is drawn closed. Theorems: `C170_rectangle_refuted`, `C170_range_refuted`, `C170_narrow_refuted`.
* **C171** Attributes of one geometry do not depend on other geometries. False: PlaneWithHole writes r_inner to the dictionary of the class before it is copied, so all geometries made later have the r_inner of the last hole. Own attributes are right, and the groove angle does not leak. Theorems: `C171_order_refuted`.
* **C173** Keywords of the CAT stack reach the right layer. Finding: d_blaze_mm and blaze_center, which the first layer understands, cannot be set through the stack (ValueError). preprocess_steps and postprocess_steps are accepted but never run because OpticalElement.__call__ comes first. Keyword geometry not modelled. Theorems: `C173_tilt_refuted`.
* **C174** Order selectors for tilted bars look up a changed blaze angle. Finding: the changed angle can be negative although blaze angles are between 0 and pi/2 (C79); the interpolated table itself is an argument. Theorems: `C174_range_refuted`.
* **C175** A whole telescope images a source in one point. Also C175_missed: photons beside the lens are left as they are. Theorems: `C175_flat_refuted`.
* **C177** A multi layer coating reflects as its files say. The reflectivity file is interpolated linearly at X = y + |v_y| (C177_position, C177_linear), the factor is the Gaussian of C81 with the peak divided by the tested fraction (C177_factor), which gives back the measured reflectivity for light polarized as in the test (C177_tested_light), and is a probability under the stated condition, which is necessary at the peak (C177_range, C177_peak_range). False: the energies of the polarization file are divided by 1000 and so have to be in eV, not in keV as the docstring says (C177_unit, C177_unit_refuted). A user who gives elements or keywords gets a TypeError, missing file names a KeyError (C177_keywords, C177_missing). Reading the files themselves is outside of the model. Theorems: `C177_unit_refuted`.
* **C178** The assembled Arcus sends photons through all its parts. Also C178_loose: outside of the table with bounds_error=False the value is nan. Theorems: `C178_sixte_refuted`, `C178_detmany_refuted`.
* **C179** The focal plane detector and the camera of Arcus see the photons. Default geometry, keywords, the recorded coordinates and the reset by 100 mm are proved (C179_default, C179_given, C179_records, C179_reset). False: photons that are detected on the camera between the two optical axes are already below z = 0 and FocalPlaneDet, which comes after the camera, misses them (C179_below, C179_between_refuted). In ArcusForSIXTE, where there is no camera, this does not happen. Theorems: `C179_between_refuted`.
* **C180** The mirror of Lynx and AXIS focusses what its shells let in. Geometry, hits, the point in the focal plane for every pair of scatter angles and the common focus on axis are proved (C180_geometry, C180_hits, C180_scatter, C180_focus). False: photons that enter at a large angle (on the 200 mm between aperture and mirror they go sideways by more than a tenth of the largest radius) miss the mirror and go on unchanged with their probability (C180_miss_refuted); the efficiency of the shell is applied to them all the same. An empty table raises ValueError (C180_empty). Theorems: `C180_miss_refuted`.
* **C182** Checks of OGIP tables. False as stated: np.can_cast with 'unsafe' is always true, so that columns of any type (text, objects) are accepted (C182_type_refuted, C182_types_ignored), and a keyword that is a python number ends in AttributeError (C182_python_number_refuted). The exact condition for acceptance is C182_columns_partial. Theorems: `C182_type_refuted`, `C182_python_number_refuted`.
* **C183** Writing and reading an ARF. False as stated for constant columns, which are kept as keywords: they are written, but come back as python numbers and ARF.read ends in AttributeError (C183_round_trip_refuted). The round trip holds where the three columns are columns (C183_round_trip_partial). The file format itself is astropy's and is an argument. Theorems: `C183_round_trip_refuted`.
* **C184** Type I spectra. False: __init__ passes itself as data and the data as the argument masked, so that the table has no columns (C184_data_refuted); write and read pass the keyword argument format twice and always fail (C184_write_refuted, C184_read_refuted), after the header was overwritten with that of an ARF (C184_header_refuted). What is true is that missing keywords and columns are reported first (C184_checks_partial). Theorems: `C184_data_refuted`, `C184_write_refuted`, `C184_read_refuted`, `C184_header_refuted`.
* **C185** Headers of response matrices. False as stated: where F_CHAN is the same in every row and kept as a keyword, write ends in ValueError (C185_constant_first_channel_refuted). The round trip is shown for tables whose required columns are columns (C185_round_trip_partial). The conversion of variable length arrays is C53. Theorems: `C185_constant_first_channel_refuted`.
* **C186** Gaussian redistribution matrix. False as stated for tables with energies: a misspelled keyword argument makes the conversion fail always (C186_energy_refuted). For tables with wavelengths, acceptance is characterised by C186_success_partial and C186_domain; the spline itself is an argument that gives back straight lines. Theorems: `C186_energy_refuted`.
* **C187** Scattered grating periods. False in part: a period that depends on the place is lost (C187_chirp_refuted). The rest is proved for all elements; numpy's normal draws are arguments. Theorems: `C187_chirp_refuted`.
* **C190** Overview plots of tolerances. False in part: a colour of the user is overwritten (C190_user_refuted) and the word the code asks for ends in an error (C190_word_refuted). Reading of the file is left out. Theorems: `C190_user_refuted`, `C190_word_refuted`.
* **C191** Elements in an X3D scene. False in part: box and surface return nothing (C191_returned_refuted). The rest is proved for all trees; the points of an element come from its geometry (C62 to C66, C103, C104) and the X3D library is left out. Theorems: `C191_returned_refuted`.
* **C195** Positions in three.js. False in part: the torus is written row after row, the loader reads column after column (C195_torus_refuted), and the backend that writes text does not work at all (C195_text_refuted, C195_shapes_refuted). Theorems: `C195_torus_refuted`, `C195_text_refuted`, `C195_shapes_refuted`.
* **C198** Response of order 0 for Arcus. Distribution function and the conversion of units are arguments; headers are covered by C185. The refuted part is the question in the source. Theorems: `C198_same_as_Gauss_refuted`.
* **C199** Files with numbers. Text of messages is not kept, except for the refuted claim about it. Theorems: `C199_text_refuted`.
* **C200** Columns of detectors. detect: FlatDetector in the table model of Photons (every cell of the result is described). C200_lost_refuted: with equal names local coordinates overwrite pixels. id_col and dtype not modelled. Theorems: `C200_lost_refuted`, `C200_imaging_refuted`.
* **C201** Set-up of AXIS. Elements are names; that elements can be built from a configuration is reduced to the entries they read. C201_budget_refuted, C201_scale_unchecked_refuted and C201_stale_refuted are about things that do not work as one may expect. Theorems: `C201_budget_refuted`, `C201_scale_unchecked_refuted`, `C201_stale_refuted`.
* **C202** Plots of order sorting. A plot is the list of its labels and curves. Order 0 is a ZeroDivisionError in python, written ValueError as in Osip_Model. C202_crossing_refuted, C202_all_refuted and C202_outside_refuted state what goes wrong. Theorems: `C202_crossing_refuted`, `C202_all_refuted`, `C202_outside_refuted`.
* **C203** README of order sorting. string.Template is modelled as an automaton and proved equal to the meaning of the template as a list of text and names. C203_outroot_refuted: the prefix is ignored. Theorems: `C203_outroot_refuted`.
* **C207** Photons to and from MARX. The C function is an argument; C207_listed_refuted: if C shortens the list of valid photons, rows are taken from the start of the array and not from the list (C207_listed_partial for the case that all are valid). A table without rows is a ValueError. Theorems: `C207_listed_refuted`.
* **C208** Local coordinates are only temporary. The MARX mirror returns a new table, so the table of the caller stays in local coordinates (C208_caller_refuted) and the polarization of a rotated mirror is transported from a direction in local coordinates (C208_polarization_refuted); right for a mirror that is only shifted (C208_polarization_partial). Theorems: `C208_caller_refuted`, `C208_polarization_refuted`.
* **C209** Photons stay physical in any instrument. Holds for any number of elements with the bound 1e-8 per element on the polarization. Exact perpendicularity is refuted: parallel transport treats directions within 1e-8 as equal and keeps the vector. Theorems: `C209_exact_refuted`.
* **C211** Photons in orders that do not exist. The condition for nan, and that such a photon never hits again and keeps all columns behind the grating, is proved. The last part is refuted: the probability keeps the value from the order selector. Theorems: `C211_probability_refuted`.
* **C212** A stack acts like the sequence of its layers. C212_lost lists the effect of every kind of layer on photons that have no direction any more. Theorems: `C212_sequence_refuted`.
* **C213** Scatter is added at the last interaction. C213_position: the position becomes the intersection with the plane; photons that do not meet the plane are left alone. C213_last_partial: position unchanged if the photon is in the plane already. C213_last_refuted and C213_behind_refuted: in general the origin moves, and photons behind the plane are not scattered. Theorems: `C213_last_refuted`, `C213_behind_refuted`.
* **C214** Moving a photon along its ray in front of an element changes nothing. C214_before and C214_beyond for every flat element, except for the part of RadialMirrorScatter perpendicular to the plane of reflection. C214_radial_refuted: that part rotates around the vector from the center to the position of the photon before the scatter, so the result depends on where on the ray the photon is. Theorems: `C214_radial_refuted`.
* **C216** Dimensions of the boom. C216_dimensions, C216_made, C216_defaults and C216_diagonal hold. Refuted: unknown dimensions give an AttributeError, because the error message uses self.name before it is set; the documented keyword boom_dims is refused (the code reads boom_dimensions); l_diag is not recalculated when a length is set. Theorems: `C216_error_refuted`, `C216_keyword_refuted`, `C216_diagonal_refuted`.
* **C217** Keywords of scatterers and filters. C217_random, C217_radial, C217_filter for all dictionaries. C217_missing_refuted: a missing inplanescatter or filterfunc is a KeyError. Theorems: `C217_missing_refuted`.
* **C218** Inherited docstrings. C218_single: nearest class for single inheritance; C218_any: with multiple inheritance some class of the method resolution order that documents the method, if there is one. C218_nearest_refuted: not always the nearest one. Theorems: `C218_nearest_refuted`.
* **C219** Names and properties of objects in plots. C219_properties says which properties are set. Refuted: an empty display dictionary falls back to that of the object, and values that DisplayDict looks up in the geometry are not used. Theorems: `C219_empty_refuted`, `C219_geometry_refuted`.
* **C222** Results do not depend on the coordinate system. Proved for whole tables and all elements of Instrument_Model except RandomGaussianScatter, for which the result is the same only with another number for the azimuth (C222_random_partial: a constant difference per direction, so the distribution is the same); with the same number it is not (C222_random_refuted). Theorems: `C222_random_refuted`.
* **C223** Two multilayer mirrors are a polarizer and an analyzer. Two mirrors are run one after the other through the photon model of Instrument_Model. C223_malus, C223_crossed and C223_parallel hold for all positions. Refuted: a photon that was blocked completely has polarization nan and gets probability nan at the next mirror (C223_blocked_refuted). Theorems: `C223_blocked_refuted`.
* **C224** Orders of gratings in a row add up and light paths can be reversed. C224_add, C224_undo and C224_reversed hold for the sign convention of FlatGrating. For CAT gratings C224_cat_partial says when orders are added and when subtracted; C224_cat_refuted has a case where order 1 after order -1 gives order -2. Theorems: `C224_cat_refuted`.
* **C226** A photon interacts with only one element of a Parallel. Literal claim refuted for elements one behind the other and for elements that touch; proved for elements in one plane that have no common point, with C226_grid as a simple test for this. Baffles are not elements of this kind. Theorems: `C226_behind_refuted`, `C226_edge_refuted`.
* **C227** The order of the elements of a Parallel does not matter. Literal claim refuted for elements one behind the other; proved for elements in one plane that have no common point, for one photon and for tables. Theorems: `C227_order_refuted`.
* **C228** The version text is taken apart. Proved for all versions made of digits, dots and dev that end in a digit, with or without hash and date; for any text the version is the longest such start. False: the hash after a release candidate or post release is lost, and without a file with the version (text empty) the match object is None and TagVersion raises AttributeError. Theorems: `C228_candidate_refuted`, `C228_no_file_refuted`.
* **C229** Headers tell versions apart. Proved for the versions of C228. False for release candidates: hash and number of commits are not in the header. Theorems: `C229_same_refuted`.
* **C230** Athena gratings are colored by sector. False: the angle is arctan2(y, z), which is the sector around the optical axis for Lynx (axis x), but Athena has its optical axis along z. C230_sign: the color only tells the sign of y; green never occurs, and opposite gratings differ. Theorems: `C230_green_refuted`, `C230_opposite_refuted`.
* **C239** Sources and pointings take the keywords they document. Proved for all keyword dictionaries as equivalences (what is given if and only if the object is made) with the error of each failure for point sources and pointings. Conversion of coordinates, isscalar, len, abs and the geometry of FarLabPointSource are arguments. Refuted: every accepted keyword has an effect (disks), laboratory sources take geomarea. Theorems: `C239_lost_refuted`, `C239_lab_area_refuted`.
* **C240** Header and columns of a simulated photon list. Exact header and columns of a new list and after a pointing; conditions, what is kept, and the state of the list after a failure are proved for any list. Refuted: repeating a failed pointing. The clock, environment and version are arguments. Theorems: `C240_repeat_refuted`.
* **C241** Header of an observation with Chandra and ACIS. Proved for all headers, aimpoints and chips; the photons enter only through which chips are hit. ACIS itself can only be made with an aimpoint and no other keywords (C125_offset_refuted), the statements hold for every offset. Refuted: one name per detector (negative numbers), references of the coordinate systems in every header. Theorems: `C241_negative_refuted`, `C241_reference_refuted`.
* **C242** Energy resolution of a detector. Refuted: the table of widths stays as the user made it (C242_shared_refuted); all else proved. np.interp is modelled for ascending energies, which the code does not check. The normal law Phi and its quantiles are arguments. Theorems: `C242_shared_refuted`.
* **C248** The matrix that Q_reflection is meant to return. The lines are never reached (C27); one photon at a time. All of the claim is proved but the last sentence, which is false: for directions that are not parallel both keep the part of the polarization perpendicular to the plane of the two directions, and the part in the plane has opposite signs (C248_opposite, for all directions and polarizations). Theorems: `C248_transport_refuted`.

Properties about the look of plots, speed or agreement with real instruments are not in the list because no executable
model here could express them.
