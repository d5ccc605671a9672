# Design of the formal model of libIGES

The source under /repo is read as text only; it is never built or run.  The
model is written in Gallina (Coq 8.16.1) under `rocq/theories` and follows the
C++ function by function.  Every definition that models code cites file and
lines.

## Conventions

* A `std::string` or a byte stream is `list ascii`.
* `int` values are `Z`; the narrowing of `long` to `int` in `int i = strtol(..)`
  is modelled by an explicit 32-bit wrap.  Positions in strings are `nat`
  (strings of 2^31 bytes or more are out of the model).
* Functions with by-reference arguments become state passing functions.  The
  outcome type separates *success*, *failure (returned false)* and *undefined
  behaviour / uncaught exception*, so undefined behaviour is never assumed away.
* `double` is the exact rational `Q`: binary rounding of arithmetic is not
  modelled, decimal printing (`%g`/`%e` with round-half-even on the exact value)
  and decimal reading are.  NaN and infinities are out of the model.
* Diagnostics on `cerr` are not modelled.

## Plan per property

| id | what is modelled, how it is proved |
|----|------------------------------------|
| C01, C02 | `FormatDEInt`, `DEItemToInt`, C `strtol`; decimal round trip by induction on digits; exact grammar of accepted fields |
| C03, C04, C06, C05 | the four line builders as state machines; invariant: bytes out = whole lines, payload = rendered items |
| C07 | `ParseHString`, `ParseLString`, `ParseInt`, `ParseReal`; rendered token lists parse back, induction over the list |
| C08, C09 | `FormatPDREal` on Q with the decimal printer; error bound by arithmetic on powers of ten |
| C10 | `getline` + `ReadIGESRecord` |
| C11 | `AddToHeader`, `writeStart`, start section part of `Read` |
| C12–C16 | `writeGlobals`, `readGlobals`, `checkDate`; composition of item round trips, negative cases by evaluation of the parse on symbolic settings |
| C17–C19, C54 | `writeDE`, `readDE` of the base class and of every entity type |
| C20, C21 | `readPD`, `writePD`, `formatComments`, `readComments` |
| C22 | `formatExtraParams`, `readExtraParams` |
| C23, C31, C40, C60–C67 | store of entities with pointers and referrers, API calls as transitions with use of destroyed entities as a distinct outcome; invariant by induction over histories (`GraphModel.v`, `GraphSpec.v`) |
| C24, C25, C43 | `Write`, `readTS`, `Read` over byte streams |
| C26–C30 | `format`/`readPD` of entities 100, 102, 110, 124, 144, 180, 308 |
| C45–C53 | `format`/`readPD` of the other entities: 104, 108, 120, 122, 126, 128, 142, 154, 164, 186, 314, 406, 408, 502, 504, 508, 510, 514 |
| C32–C35, C56, C57 | `ConvertUnits`, `ChangeModelScale`, `GetUnitName`, `rescale` of all entities, end points of curves over Q |
| C36 | `checkDate` with out-of-table access as a distinct outcome |
| C37, C58, C59 | `MCAD_FILEPATH` with thrown exceptions as a distinct outcome; its use in `Write` and `Read` |
| C38, C68-C70 | objects, handles and validity flags as a transition system (HandleModel), over all histories; use of something destroyed is the outcome `None` |
| C39 | matrices and transforms over Q, `GetTransformMatrix` over chains of entities |
| C41, C71, C73 | the members of spline curves and surfaces and the calls which set, hand out and write them (NurbsModel), joined to the round trips of the records |
| C72 | `hasUniquePlane` over exact rationals; unit vectors are kept as a vector to be divided by its length, comparisons are decided by squaring |
| C74 | composition of the section and record round trips over the list of entities (RoundEnt, RoundFile); conditions and result in RoundSpec |
| C75 | the reader stays in step with the lines as long as it succeeds, then meets the bad record (RoundBad) |
| C76 | settings read back (C12, C16) put into C74 and C75 (RoundRes) |
| C77, C78 | `associate` of all classes and the end of `Read` as functions on the store of GraphModel (AssocModel); a plan of the references says what the result must be (PlanSpec, AssocSpec); induction over the entities with an invariant saying who is connected already (AssocFacts, AssocRun, AssocPlan, AssocAll), then C31 |
| C79 - C84 | AcceptSpec says what a file must say (`proper`) and of what kind pointers are (`well_kinded`); one invariant through every step of `associate`, whatever its answer, with what success says of the number at hand (AcceptFacts, AcceptProps); destruction only takes pointers away (AcceptCull); the undefined and refuted cases by running the model on symbolic or concrete files (AcceptMore) |
| C85 - C87 | the whole of `Read` (JoinModel): FileModel, then AssocModel on the numbers found in the records, then the conversion of UnitModel with parents taken from the graph, then `Cull`; JoinSpec says when a document refers as a plan says; C74, C77 and C32 joined by showing that what is read says of the plan what the document did (JoinFacts, JoinProps) |
| C88 - C93 | `Export` (ExportModel) on a heap shared by two models, with GraphModel's `AddDE` and `AddEntity` and UnitModel's conversions; `getDepthLevel` with fuel. ExportSpec says what the contents are, what becomes of each entity, of line weights and names, and how deep definitions are nested; invariants of the two loops (ExportFacts), then the whole (ExportProps, ExportProps2, ExportProps3) |
| C94 - C100 | `MCAD_SEGMENT` over the real numbers (SegModel): tolerances, angles and comparisons as in the code, the normalisation of angles in closed form; SegSpec says which points a segment covers and on which course it is travelled; trigonometry (SegTrig), then `SetParams` (SegFacts), boxes (SegBox), splitting (SegSplit, SegSplitArc) |
| C101 - C104 | `GetIntersections` (CutModel) on top of SegModel: the four checks with their tolerances; CutSpec says what common points are, in which order they are met, and what the code sees instead; exactness of the two points of two circles (CutFacts, CutCircle), ranges of arcs (CutArc), the quadratic equation of a line and a circle (CutLine, CutArcLine); touching and concentric arcs (CutTouch); wrong answers as concrete cases (CutCases) |
| C105 - C109 | `MCAD_OUTLINE` (OutModel): `AddSegment`, `IsContiguous`, `IsInside`, the bounding box; OutSpec says what fits, what closes, how outlines come about (`built`), the area to the left as a Riemann integral; invariants by induction over calls (OutFacts, OutBox), areas (OutArea), the outline which is turned the wrong way (OutDraw), the horizontal line which decides about inside (OutInside). |
| C110 - C113 | `IsInside` for outlines of lines by counting the lines which reach the height of the point (OutPoly); `opOutline` with a circle (OutModel): the result is a closed course by following the segments which are split and deleted (OutCut), union and difference of discs by the power of a point (OutDisc), what is refused and the box left behind (OutOps); two outlines with an arc which go wrong (OutLost). |
| C114 - C120 | surfaces of boards (PcbModel): `IGES_GEOM_CYLINDER`, `IGES_GEOM_WALL`, `IGES_GEOM_PCB` (`GetCurves`, `GetCurveOnPlane`, `GetSegmentWall`), `GetVerticalSurface`, `GetTrimmedPlane`; PcbSpec says where curves and surfaces go, what a bound is, what a wall covers and which way it faces; curves by following the angle (PcbCurve, PcbPlane), the bounds of cylinders and which composite curves are taken for closed (PcbCyl), cover and normals (PcbWall, PcbFace), when a wall is made (PcbDone), whole boards (PcbBoard), boards which go wrong (PcbCase). |
| C121 - C124 | `opOutline` with an outline and `AddCutout` (OvlModel; lists with places for the iterators, loops without end an outcome of their own); OvlSpec says what it means to cut a course at two points; splitting keeps closed courses (OvlFacts), the parts are joined to closed courses (OvlJoin, OvlOps), what is kept and stored (OvlAdd), squares which are merged, cut out, or go wrong (OvlCase), a call which does not return (OvlHang). |
| C125 - C127 | Handles, objects and their valid flags as two maps, every use of something destroyed an outcome of its own, what the geometry answers given from outside (GhModel); GhSpec says what owning means and which programs are careful; objects form trees (GhTree, GhInv), every call keeps them (GhOps, GhStore, GhRun), what this means (GhFacts), careful and other programs (GhCase). |
| C128 | The arrays of the functions which hand out lists, element by element, elements not written told apart (GhList, GhListFacts). |
| C42 | `GetNewPartName` |
| C44, C55 | comment list and header lines with the cached array view |
| C129 | The two nested searches with the list cut in two where the iterator stands, a second use of an erased iterator an outcome of its own (DrModel); DrSpec says what groups are; the invariant of the walk (DrFacts); circles as in CutModel (DrCircle). |
| C130 | Where the drills go, with the outlines and what is answered left open, a freed entry of the list of cutouts told apart (DrModel, DrBoard); the two layouts with the real geometry (DrCase). |
| C131 | Lines and fields as functions on the text from the index on (IdfText); IdfSpec says what fields, comments, keywords and decimals are; one call, then all of them (IdfFacts, IdfNum). |
| C132, C133 | Reading and writing a record as functions to and from text (IdfText); a line written is a list of fields (IdfRound), the fields decide what is read (IdfLine), sections by induction (IdfSect). |
| C134 | Constructors of a segment over the reals (IdfGeo); an arc is said by turning its start (IdfGeoSpec); IdfArc, IdfConv. |
| C135 | Conversion piece by piece onto the outline of OutModel, by induction (IdfLoop). |
| C136 | The sum kept by push against the area by Green's formula, arc by arc (IdfMono, IdfWind). |
| C137, C138 | Transforms as matrices, bodies as the surfaces of PcbModel (IdfBody); the way surfaces look from C116 and C120 (IdfBodyFacts). |
| C139 | The loop over the lines as a fold over records (IdfOutl); the records of a section are described without states (IdfOutlSpec), both directions by induction (IdfOutlFacts, IdfOutlSec). |
| C140 | Text of each point read back by IdfNum, closing and staying apart by margins (IdfOutlText). |
| C141 | Reading as steps on a map in the order of names (IdfPlace); the board described by the records (IdfPlaceSpec); an invariant by induction from the end of the file (IdfPlaceFacts), and lines as in C133 (IdfPlaceText). |
| C142 | Each record read back by IdfNum, then C141 for the records read (IdfPlaceAgain). |
| C143 | From the board of C141, by induction over components and parts (IdfPlaceFacts); the substitute is built by `push` in the reals (IdfStar). |
| C144 | Header as lines and fields (IdfFile, IdfFileSpec); fields by the lemmas of C131 (IdfFileHead), the text written laid out as fields (IdfFileSect). |
| C145 | The loop of sections by induction; after a line which is no heading the scanner starts behind the first character of every line (IdfFileOrder). |
| C146 | Each section there and back (IdfFileOutl), then sections one after the other from the end of the file (IdfFileAgain). |
| C147 | Second line and properties as fields (IdfLib, IdfLibSpec); fields by the lemmas of C131, the map of properties by induction over the lines (IdfLibFacts). |
| C148 | The outlines added one by one, the first of each key kept (IdfLibFile); each section written, read back with its comments and properties, then the sections one after the other (IdfLibAgain). |
| C149 | Each kind of second line as fields (IdfRecSpec), by the lemmas of C131 for each field (IdfRecFacts); the section by composing the lines. |
| C150 | By induction over the lines after the placement (IdfRecFacts). |
| C151 | Counters against the placements which exist, by induction over calls (IdfRefFacts); the library by C148 (IdfRefLib). |
| C152 | The list of pointers and the deleted ones (IdfHold); each call by cases, sequences by induction (IdfHoldFacts). |
| C153 | AddSlot over the constructor of C134 and push (IdfSlot); the error of the caps by the bound of a chord (IdfSlotFacts). |
| C154 | The map from names to components beside the components which exist; a deleted one being used is a distinct outcome (IdfParts); an invariant of the programs which name first (IdfPartsFacts). |

Where the faithful model makes the obvious statement false, the property is
stated as the exact truth (including the defect) and a `_refuted` theorem with a
concrete witness records the naive claim's failure.

## Trusted base

Coq's kernel.  `Print Assumptions` follows every property theorem in the files
`Prop*.v`.  It prints "Closed under the global context" for those of C01 to C93.
It prints the same for those from C125 on which are not about real numbers.  For the
others from C94 on, which are, it lists the axioms of the real
numbers of Coq's standard library, or some of them, and no others:
`ClassicalDedekindReals.sig_forall_dec`, `ClassicalDedekindReals.sig_not_dec`,
`FunctionalExtensionality.functional_extensionality_dep`, `Classical_Prop.classic`.
The definition of the integral in C107 is Coquelicot's; no axiom of that library is used.
MANIFEST.json lists the theorems of every property.

What a theorem says is about the model.  That the model says what the code does
was established by reading; the citations in the comments are there to check it.

### What is modelled

| source | model |
|--------|-------|
| `src/iges/iges_io.cpp`, all of it | IoModel |
| `src/iges/iges.cpp`: Start Section | HeaderModel, CacheModel |
| `src/iges/iges.cpp`: Global Section | GlobalModel |
| `src/iges/iges.cpp`: `Read`, `Write`, Terminate Section | FileModel |
| `src/iges/iges.cpp`: `NewEntity`, `AddEntity`, `DelEntity`, `UnlinkEntity`, `Cull`, `Clear`, destructor | GraphModel |
| `src/iges/iges.cpp`: `ConvertUnits`, `ChangeModelScale`, `GetNewPartName`, `GetUnitName` | UnitModel |
| `src/iges/mcad_utils.cpp` | PathModel |
| `src/entities/iges_entity.cpp`: `readDE`, `writeDE` | DeModel |
| `src/entities/iges_entity.cpp`: `readPD`, `writePD`, comments, optional entities in records | PdModel |
| `src/entities/iges_entity.cpp`: setters, references, destructor | PutModel, GraphModel |
| `src/entities/entityNNN.cpp`: `format`, `readPD`, `readDE` of all types | EntModel, EntModel2, EntModel3, DeModel, PayloadModel |
| `src/entities/entityNNN.cpp`: `unlink`, `addReference`, `delReference`, `isOrphaned`, setters of pointers | GraphModel |
| `src/entities/iges_entity.cpp`, `entityNNN.cpp`: `associate`; the end of `Read` | AssocModel |
| `src/iges/iges.cpp`: `Read` from the file to the culled model | JoinModel |
| `src/iges/iges.cpp`: `Export`; `getDepthLevel` of entities 308 and 408 | ExportModel |
| `src/entities/entityNNN.cpp`: `rescale`, end points | UnitModel |
| `src/entities/entity126.cpp`, `entity128.cpp`: data setters, `hasUniquePlane` | NurbsModel |
| `src/geom/mcad_elements.cpp`: points, matrices, transforms | GeomModel |
| `src/geom/mcad_segment.cpp`: `SetParams`, getters, `GetBoundingBox`, `reverse`, `Split`; `PointMatches` over reals | SegModel |
| `src/geom/mcad_segment.cpp`: `GetIntersections`, `checkCircles`, `checkArcs`, `checkArcLine`, `checkLines` | CutModel |
| `src/geom/mcad_outline.cpp`: constructor, `IsContiguous`, `IsInside`, `AddSegment`, `opOutline` with a circle, `calcBoundingBox`, `adjustBoundingBox` | OutModel |
| `src/geom/geom_cylinder.cpp`, `geom_wall.cpp`, `iges_geom_pcb.cpp`; `src/geom/mcad_outline.cpp`: `GetVerticalSurface`, `GetTrimmedPlane`, `getUntrimmedPlane`; `src/entities/entity102.cpp`: `AddSegment`, `IsClosed` for curves of these kinds | PcbModel |
| `src/geom/mcad_outline.cpp`: `opOutline` with an outline, `AddOutline`, `SubOutline`, `AddCutout` | OvlModel |
| `src/dllapi/dll_mcad_segment.cpp` L38-133, `dll_mcad_outline.cpp` L39-131 and L293-472, `dll_iges_geom_pcb.cpp` L40-90: constructors, destructors, `New...`, `Del...`, `Attach`, `Detach`, `GetRawPtr`, everything which adds; `mcad_segment.cpp` L60-148, `mcad_outline.cpp` L113-209: destructors, valid flags | GhModel |
| `dll_iges_geom_pcb.cpp` L93-349, `dll_mcad_outline.cpp` L134-221, `dll_mcad_segment.cpp` L287-361, L387-441: arrays | GhList |
| `src/geom/mcad_helpers.cpp`: `PointMatches`, `CalcNormal`, `CheckNormal` | EntModel, NurbsModel |
| `src/dllapi/dll_iges.cpp`, `dll_iges_entity.cpp`, `dll_entityNNN.cpp`: life time of handles | HandleModel |
| `src/idf/idf2igs.cpp` L254-344 of `MakeBoard`, L486-515 `convertDrills`, L520-666 `mergeDrills`, L670-743 `bundleDrills`, L768-786 `killCutouts` | DrModel, DrCircle; the entities made of the board and their names are not followed |
| `src/idf/idf_helpers.cpp` L35-169, `src/idf/idf_common.cpp` L94-263, L333-388, L407-740, `src/idf/idf_parser.cpp` L1633-1670, L2985-3029 | IdfText; `istr >> double` as GNU's library reads decimals, and fixed notation on writing |
| `src/idf/idf_common.cpp` L844-884, L1034-1164, L1211-1388, `src/idf/idf2igs.cpp` L398-483, L857-1094, L1116-1255, `src/geom/mcad_elements.cpp` L122-131, L209-255, L334-339 | IdfGeo, IdfBody; without the entities 308, 406, 408, colours and messages |
| `src/idf/idf_outlines.cpp` L154-655, L694-974 | IdfOutl; IsCCW is a parameter |
| `src/idf/idf_parser.cpp` L255-836, L1384-1392, L1673-1680, L2983-3001, L3052-3104, L3343-3357, L3594-3645, L3970-4010, `src/idf/idf2igs.cpp` L889-957 | IdfPlace; outlines are their names, ownership (CAD type checks) and reference counts are left out |
| `src/idf/idf_outlines.cpp` L3536-3614 | IdfStar |
| `src/idf/idf_parser.cpp` L1684-2419, L2553-2706, L2800-2811, L2839-3096, `src/idf/idf_outlines.cpp` L1032-1245, L1613-2222, L2321-2625, L2745-2949 | IdfFile; without CAD types, comments are kept on reading but not written |
| `src/idf/idf_outlines.cpp` L2977-3424, L3501-3512, `src/idf/idf_parser.cpp` L63-101, L2423-2549, L2709-2741, L2795-2836 | IdfLib; opening files is left out |
| `src/idf/idf_parser.cpp` L110-158, L236-252, L717-726, `src/idf/idf_outlines.cpp` L3426-3442, L3515-3533 | IdfRef; outlines and placements are numbers, assignment is left out |
| `src/idf/idf_outlines.cpp` L79-147, L1247-1425, L1462-1491 | IdfHold; outlines are numbers, one section at a time |
| `src/idf/idf_parser.cpp` L844-857, L885-945, L974-1001, L1295-1316, L1396-1438, L3668-3714, L3757-3766, L4059-4072 | IdfParts; components are a name and a placement, the order of the map is left out |
| `src/idf/idf_parser.cpp` L3436-3515 | IdfSlot; without the errors of memory |

### What is not modelled

* outlines which are merged with themselves;
* the SISL library: that `s1602` gives the straight line, `s1303` the circular arc and
  `s1536` the bilinear surface is assumed, in the form of the definitions `goes` and
  `surf_at` of PcbSpec; the library keeps within 1e-8 of these, the model is exact;
* entities which are left over when the making of a surface fails;
* `src/idf`: the converter program, except for the parts listed above;
* interpolation along curves (`Interpolate`, SISL);
* rounding of binary floating point, NaN, infinities and numbers beyond 10^300;
* failing allocations and failing writes in the middle of a file;
* diagnostics on `cerr`.

Narrower omissions are stated in the comment of the definition concerned and in
the notes in MANIFEST.json.
