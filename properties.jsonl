{"id": "C01", "title": "Directory integers survive a write and read back", "statement": "For every integer the library agrees to place in an eight column Directory Entry field, the field is exactly eight columns wide and reading any of the nine fields of a data record that holds it there gives back that integer; integers outside -9999999..99999999 are refused.", "quantifier": "every integer, every one of the nine fields, every content of the other fields", "why_tests_cant": "There are 10^8 representable values and nine positions; tests sample a few.", "anchors": ["src/iges/iges_io.cpp: FormatDEInt", "src/iges/iges_io.cpp: DEItemToInt"]}
{"id": "C02", "title": "The Directory field reader never invents a number", "statement": "Whenever the Directory field reader succeeds without using a default, the eight columns consist of optional white space, an optional sign and at least one decimal digit, running to the end of the field or to a NUL byte, and the number delivered is the value of that text; a blank field succeeds only when a default was supplied and delivers that default; every other content is refused.", "quantifier": "every 8 character field content over all byte values", "why_tests_cant": "The field content ranges over all byte strings of length eight, 256^8.", "anchors": ["src/iges/iges_io.cpp: DEItemToInt"]}
{"id": "C03", "title": "Text in the Global Section survives a write and read back", "statement": "Every text (of any bytes except the terminators handled by line reading) placed in the Global Section as a Hollerith string, at any column position and across any number of line breaks, is read back byte for byte by the Global Section string parser, which stops exactly after the string's delimiter.", "quantifier": "every text of any length and content, every starting column, every delimiter pair", "why_tests_cant": "Correctness depends on where the line breaks fall inside and around the string; text length and column are unbounded.", "anchors": ["src/iges/iges_io.cpp: AddSecHStr", "src/iges/iges_io.cpp: AddSecItem", "src/iges/iges_io.cpp: ParseHString"]}
{"id": "C04", "title": "Text in the Parameter Data Section survives a write and read back", "statement": "Every text placed in a Parameter Data record as a Hollerith string, at any column position and across any number of line breaks, is read back byte for byte by the parameter string parser.", "quantifier": "every text of any length and content, every starting column, every delimiter pair", "why_tests_cant": "Correctness depends on where the 64 column line breaks fall; text length and column are unbounded.", "anchors": ["src/iges/iges_io.cpp: AddPDHStr", "src/iges/iges_io.cpp: ParseHString"]}
{"id": "C05", "title": "Parameter Data lines are well formed", "statement": "Every completed Parameter Data record is a sequence of 80 column lines each ended by a newline: 64 columns of data, a blank, the seven column number of the Directory Entry that owns it, the letter P and a seven column sequence number; the sequence numbers run consecutively from the number the record was started with, and the counter handed back is one more than the last one used.", "quantifier": "every list of parameters (numbers and texts) that the line builder accepts, every starting number and owner in range", "why_tests_cant": "The number of parameters and their lengths are unbounded and each new line depends on everything before it.", "anchors": ["src/iges/iges_io.cpp: AddPDItem", "src/iges/iges_io.cpp: AddPDHStr", "src/entities/iges_entity.cpp: writePD"]}
{"id": "C06", "title": "Global Section lines are well formed", "statement": "Every completed Global Section is a sequence of 80 column lines, each ended by a newline, with 72 columns of data, the letter G and consecutive sequence numbers starting at 1.", "quantifier": "every list of global parameters accepted by the line builder", "why_tests_cant": "The number and lengths of parameters are unbounded and each new line depends on everything before it.", "anchors": ["src/iges/iges_io.cpp: AddSecItem", "src/iges/iges_io.cpp: AddSecHStr"]}
{"id": "C07", "title": "A parameter list of any length survives a write and read back", "statement": "For every list of integers and texts written in order as one Parameter Data record, parsing the recovered 64 column data in the same order gives back the same list, reports the end of the record exactly at the last parameter, and leaves nothing but blanks.", "quantifier": "every list of integer and text parameters, every line layout they cause", "why_tests_cant": "Unbounded lists; the padding inserted at line ends is invisible to point tests.", "anchors": ["src/iges/iges_io.cpp: AddPDItem", "src/iges/iges_io.cpp: AddPDHStr", "src/iges/iges_io.cpp: ParseInt", "src/iges/iges_io.cpp: ParseHString"]}
{"id": "C08", "title": "Reals are written as legal IGES reals", "statement": "For every finite value and every positive resolution, the text written for a real parameter is an optional minus sign, digits, a decimal point with at least one digit following (or an exponent form), at most one exponent marker E or D, and the requested delimiter; it contains no blank, no other letter and no embedded delimiter, and its mantissa has no superfluous trailing zeros.", "quantifier": "every real value and every positive resolution", "why_tests_cant": "The value space is the continuum of doubles.", "anchors": ["src/iges/iges_io.cpp: FormatPDREal"]}
{"id": "C09", "title": "Reals survive a write and read back to within the model resolution", "statement": "For every value of magnitude at most 10^300 and every positive resolution r, the text written is parsed back as a value which differs from the original by at most r/2000, or by 5 parts in 10^16 of the value when it needs more than 16 digits, and never by more than 5 parts in 10^6; values of at most six significant digits come back exactly; values below 1e-8 in magnitude come back as exactly zero; a non-positive resolution is refused.", "quantifier": "every real value and every resolution", "why_tests_cant": "The error bound ranges over all doubles and depends on a logarithm based digit count.", "anchors": ["src/iges/iges_io.cpp: FormatPDREal", "src/iges/iges_io.cpp: ParseReal"]}
{"id": "C10", "title": "Record reader accepts exactly the IGES line format", "statement": "A line is accepted as a record exactly when, after removal of trailing newline, carriage return and form feed characters, it has 80 columns, column 73 holds one of the section letters F S G D P T and columns 74 to 80 hold a blank padded positive integer; the data delivered is columns 1 to 72 unchanged, and CR LF files give the same records as LF files.", "quantifier": "every line of bytes and every trailing run of line end characters", "why_tests_cant": "All byte strings of any length must be classified correctly.", "anchors": ["src/iges/iges_io.cpp: ReadIGESRecord"]}
{"id": "C11", "title": "Header text is kept, in order, except text of exactly 72 characters", "statement": "Adding header text appends it to the Start Section cut into consecutive pieces of 72 columns, the last one blank padded, so that the concatenation of the lines added is the text followed by fewer than 72 blanks; the single exception is text of exactly 72 characters, which is silently lost although the call reports success. Writing the Start Section produces one 80 column S record per stored line, numbered consecutively from 1 (one line about the library if there is none), and reading these records into an empty model restores the lines; reading into a model which already has header text fails.", "quantifier": "every text handed to the header function and every history of such calls", "why_tests_cant": "Text content and length are unbounded; the exact boundary length 72 is a single point tests easily miss.", "anchors": ["src/iges/iges.cpp: IGES::AddToHeader", "src/iges/iges.cpp: IGES::writeStart", "src/iges/iges.cpp: IGES::GetNHeaderLines"]}
{"id": "C12", "title": "Global parameters survive a write and read back", "statement": "When the library writes a model's Global Section and reads it back, the sending and receiving product ids, file name, system id, preprocessor version, units, model scale, resolution, dates, author, organization, drafting standard and application note are those that were set, for every setting the writer accepts with the default delimiters; the IGES version is always read as 11 and the maximum coordinate as 0.", "quantifier": "every combination of global parameters with the standard delimiters and resolution at least 1e-8", "why_tests_cant": "26 interacting parameters of unbounded text length.", "anchors": ["src/iges/iges.cpp: IGES::writeGlobals", "src/iges/iges.cpp: IGES::readGlobals"]}
{"id": "C13", "title": "Non default record delimiter makes the file unreadable", "statement": "With the default parameter delimiter and any record delimiter other than the default, and also with a semicolon as parameter delimiter, the Global Section the library writes is refused by its own reader, whatever the rest of the model.", "quantifier": "every non-default record delimiter and every setting of the other globals", "why_tests_cant": "Universal failure claim over all global settings.", "anchors": ["src/iges/iges.cpp: IGES::readGlobals (G2)", "src/iges/iges.cpp: IGES::writeGlobals (items 1, 2)"]}
{"id": "C14", "title": "Fine resolutions make the file unreadable", "statement": "A model whose resolution lies in [1e-12, 1e-8) (for instance a default model converted from millimetres to inches) is written with a resolution of 0.0, which the reader refuses; hence the file cannot be read back.", "quantifier": "every resolution in the interval and every setting of the other globals", "why_tests_cant": "A whole interval of settings and all other globals.", "anchors": ["src/iges/iges.cpp: IGES::writeGlobals (item 19)", "src/iges/iges.cpp: IGES::readGlobals (G19)", "src/iges/iges_io.cpp: FormatPDREal", "src/iges/iges.cpp: IGES::ConvertUnits"]}
{"id": "C15", "title": "Maximum line width is not what is written", "statement": "The Global Section never carries the model's maximum line width: item 17 is the number of line weight gradations instead, so reading back yields the gradation count as width for every model whose two values differ.", "quantifier": "every global setting", "why_tests_cant": "Universal claim over settings.", "anchors": ["src/iges/iges.cpp: IGES::writeGlobals (item 17)"]}
{"id": "C16", "title": "Normalisation to millimetres happens only when the application note is present", "statement": "On reading, unit and scale are normalised to millimetres and scale 1 exactly when the Global Section record continues into its 26th parameter; when the record ends at or before the 25th parameter the model keeps its unit and scale and no entity is rescaled.", "quantifier": "every accepted Global Section", "why_tests_cant": "Depends on where the record delimiter falls among unboundedly many inputs.", "anchors": ["src/iges/iges.cpp: IGES::readGlobals (G26, conversion factor)"]}
{"id": "C17", "title": "Directory Entries survive a write and read back", "statement": "For every entity whose Directory Entry is written successfully and whose fields are in the range the reader accepts, reading the two written lines restores type, parameter data pointer and count, line font, level, view, transform, label association, status, line weight (clamped to the global gradations), colour, form, label (leading blanks removed) and subscript, except for the fields which the entity's type fixes; if any field is out of that range, or the form is not one of those of the type, reading fails.", "quantifier": "every combination of directory attributes", "why_tests_cant": "19 fields, each with up to 10^8 values.", "anchors": ["src/entities/iges_entity.cpp: IGES_ENTITY::writeDE", "src/entities/iges_entity.cpp: IGES_ENTITY::readDE"]}
{"id": "C18", "title": "Status digits are independent", "statement": "The blank, dependency, use and hierarchy flags are packed into the status number so that each is recovered exactly, for every combination, and the reader refuses every status number with an out of range component.", "quantifier": "every combination of status flags and every status number of up to eight digits", "why_tests_cant": "10^8 status numbers on the reading side.", "anchors": ["src/entities/iges_entity.cpp: IGES_ENTITY::writeDE (DE9)", "src/entities/iges_entity.cpp: IGES_ENTITY::readDE (DE9)"]}
{"id": "C19", "title": "A level given by a level definition entity makes the file unreadable", "statement": "Whenever an entity's level refers to a level definition entity, the Directory Entry written for it is refused by the reader.", "quantifier": "every entity with a level reference and every value of its other attributes", "why_tests_cant": "Universal failure claim.", "anchors": ["src/entities/iges_entity.cpp: IGES_ENTITY::writeDE (DE5)", "src/entities/iges_entity.cpp: IGES_ENTITY::readDE (DE5)"]}
{"id": "C20", "title": "Parameter Data of one entity is never attributed to another", "statement": "Reading an entity's Parameter Data succeeds only if every one of its lines carries section letter P, the expected consecutive sequence number, a blank in column 65 and the entity's own Directory Entry number, and the first parameter is the entity type; the data delivered is then the concatenation of the first 64 columns of exactly those lines and exactly that many lines are consumed.", "quantifier": "every sequence of lines", "why_tests_cant": "All files, including hostile or corrupt ones.", "anchors": ["src/entities/iges_entity.cpp: IGES_ENTITY::readPD"]}
{"id": "C21", "title": "Any entity comment makes the file unreadable", "statement": "If an entity carries a non-empty comment then the Parameter Data the library writes for it is refused when read back, unless the comment itself happens to hold the entity's own Directory Entry number in columns 66 to 72.", "quantifier": "every entity, every non-empty comment text", "why_tests_cant": "Universal failure claim over all texts.", "anchors": ["src/entities/iges_entity.cpp: IGES_ENTITY::formatComments", "src/entities/iges_entity.cpp: IGES_ENTITY::readPD", "src/entities/iges_entity.cpp: IGES_ENTITY::AddComment"]}
{"id": "C22", "title": "Optional entity lists survive a write and read back", "statement": "For every entity whose optional associativity/text and property lists hold any number of entities, the numbers written after the entity's own parameters are read back as the same Directory Entry numbers, associativities first, in order.", "quantifier": "every list of optional entities", "why_tests_cant": "Unbounded lists.", "anchors": ["src/entities/iges_entity.cpp: IGES_ENTITY::formatExtraParams", "src/entities/iges_entity.cpp: IGES_ENTITY::readExtraParams"]}
{"id": "C23", "title": "Reference counting is symmetric over any history", "statement": "Starting from an empty model, or from one just read from a file, over every history of creating entities, adding them to and removing them from the model, setting and clearing their transform, colour, font, level, structure, label and view references, their optional entities, the parts of surfaces, curves, subfigures, trees, solids and edge lists, deleting entities, culling and clearing, no call follows a pointer to a deleted entity, and afterwards whenever an entity points to another the other is alive and lists it as a referrer, and the other way round. Left out are the calls and situations of C62 to C67, in which this is false.", "quantifier": "every finite history of API calls on any number of entities", "why_tests_cant": "Histories are unbounded.", "anchors": ["src/entities/iges_entity.cpp: IGES_ENTITY::addReference L362, delReference L416, unlink L280, ~IGES_ENTITY L117, AddOptionalEntity L2858, DelOptionalEntity L2902, setters L1867-2549", "src/iges/iges.cpp: NewEntity L823, AddEntity L948, DelEntity L976, UnlinkEntity L1004, Clear L404, Cull L1746"]}
{"id": "C24", "title": "Sequence numbering and whole file layout", "statement": "A successful write produces Start, Global, Directory, Parameter and Terminate sections in this order; Directory records are numbered 1,2,3,... with two per entity, Parameter records 1,2,3,... without gaps, every entity's directory pointer names its first parameter line, its line count is exact, and the Terminate record holds the exact number of lines of each section.", "quantifier": "every model", "why_tests_cant": "Number of entities and lines unbounded.", "anchors": ["src/iges/iges.cpp: IGES::Write", "src/iges/iges.cpp: IGES::readTS"]}
{"id": "C25", "title": "Terminate counts are not enforced", "statement": "Reading accepts a file whatever line counts its Terminate record states, provided the record is well formed; only a malformed record is refused.", "quantifier": "every terminate record", "why_tests_cant": "All possible counts.", "anchors": ["src/iges/iges.cpp: IGES::readTS"]}
{"id": "C26", "title": "Circular arcs survive a write and read back", "statement": "For every arc whose written coordinates satisfy the reader's radius checks, writing the arc and reading it back restores all seven coordinates to the written values; arcs of zero radius or with unequal radii are refused. The comparison is between squared radii and a length, so that large arcs of an exact circle are refused because of rounding.", "quantifier": "every arc and resolution", "why_tests_cant": "Seven real coordinates and data dependent line layout.", "anchors": ["src/entities/entity100.cpp: format, readPD"]}
{"id": "C27", "title": "Pointer list entities survive a write and read back", "statement": "Composite curves and subfigure definitions with any number of members are read back with the same member list in the same order, the same nesting depth and name.", "quantifier": "every member list", "why_tests_cant": "Unbounded lists; line breaks fall anywhere.", "anchors": ["src/entities/entity102.cpp: format, readPD", "src/entities/entity308.cpp: format, readPD"]}
{"id": "C28", "title": "Transformation matrices and lines survive a write and read back", "statement": "A transformation matrix entity restores its twelve coefficients and a line entity its six coordinates when written and read back.", "quantifier": "all coefficient values", "why_tests_cant": "Continuum of values and data dependent line layout.", "anchors": ["src/entities/entity124.cpp: format, readPD", "src/entities/entity110.cpp: format, readPD"]}
{"id": "C29", "title": "Boolean trees written by the library can never be read", "statement": "Every boolean tree entity holding at least one operand is refused on reading the Parameter Data the library wrote for it.", "quantifier": "every boolean tree", "why_tests_cant": "Universal failure claim over all trees.", "anchors": ["src/entities/entity180.cpp: format, readPD"]}
{"id": "C30", "title": "Trimmed surfaces without an outer boundary cannot be read back", "statement": "A trimmed surface entity that has no outer boundary curve is written as N1=0 and pointer 0, which the reader refuses; with an outer boundary, the surface, outer and inner boundary pointers are restored in order.", "quantifier": "every trimmed surface and any number of inner boundaries", "why_tests_cant": "Unbounded inner boundary list.", "anchors": ["src/entities/entity144.cpp: format, readPD"]}
{"id": "C31", "title": "Culling", "statement": "Culling deletes every stored entity which was an orphan before, and only entities which are orphans when they are visited; it keeps the order of the others, deletes nothing which is not stored, takes pointers away but adds none, does nothing when nothing is an orphan, and leaves every group of connected entities without an orphan untouched. One pass may leave orphans (a transform stored before its only user, which is culled); as many passes as there are entities leave none. (Models with trees of two or more operands, or with edges using a vertex list without vertices, are left out.)", "quantifier": "every state any history of calls leads to", "why_tests_cant": "Unbounded entity graphs.", "anchors": ["src/iges/iges.cpp: IGES::Cull L1746-1781", "src/entities/entity*.cpp: isOrphaned", "src/include/core/iges_entity.h: isOrphaned"]}
{"id": "C32", "title": "Unit conversion scales by the exact ratio of the unit lengths", "statement": "Converting units multiplies every length of every entity and the resolution by the ratio of the unit lengths, conversions compose, converting there and back is the identity, and UNIT_EXTERN is refused without any change; unit numbers outside of 1..11 are not refused: they divide by the zero which ends the conversion table or index outside of it. Lengths of curves in the parameter space of a surface are their third coordinates only; what rescaling does to the equations of conics is C56.", "quantifier": "every pair of units, every model", "why_tests_cant": "All unit pairs and all coordinate values.", "anchors": ["src/iges/iges.cpp: IGES::ConvertUnits"]}
{"id": "C33", "title": "Unit conversion is not atomic", "statement": "When an entity of the model cannot be rescaled the conversion reports failure but the resolution and every entity before it have already been scaled while the unit flag still names the old unit.", "quantifier": "every model containing an entity that refuses rescaling", "why_tests_cant": "Unbounded models and positions.", "anchors": ["src/iges/iges.cpp: IGES::ConvertUnits", "src/iges/iges.cpp: IGES::ChangeModelScale", "src/entities/entityNULL.cpp: rescale"]}
{"id": "C34", "title": "Changing the model scale mis-scales the resolution", "statement": "Changing the model scale from s to t multiplies every coordinate by t/s but the resolution by t, so that the resolution stays in proportion to the coordinates only if s = 1 (or t = 0, which is impossible); scales outside 6e-8..17000000 are refused without any change.", "quantifier": "every scale pair and model", "why_tests_cant": "Continuum of scales.", "anchors": ["src/iges/iges.cpp: IGES::ChangeModelScale"]}
{"id": "C35", "title": "Unit names are those of the next unit", "statement": "The unit name reported by the model object is, for every unit except the last, the abbreviation of the following unit in the enumeration, and for the last unit the empty text; it never is the abbreviation which is written to the file for that unit.", "quantifier": "every unit flag", "why_tests_cant": "Finite but tests check one.", "anchors": ["src/iges/iges.cpp: IGES::GetUnitName"]}
{"id": "C36", "title": "Date validation", "statement": "Every date accepted has 13 or 15 characters with a period before the time, month 1-12 implies day 1..days(month) (29 in February of any year), hour below 24, minute below 60, whereas seconds are only checked to be non-negative; every genuine calendar date and time is accepted; a date text whose month field is outside 1..12 makes the validation read outside of its table.", "quantifier": "every date text", "why_tests_cant": "All byte strings.", "anchors": ["src/iges/iges.cpp: checkDate"]}
{"id": "C37", "title": "File path splitting", "statement": "For every path, the file name reported after the last separator, joined with the directory part, gives back the path; the base name plus extension gives the file name; asked any number of times in any order; but the first question for the base or file name of a path which holds no period anywhere and does not end in a separator raises an out of range exception, later ones are answered.", "quantifier": "every path string", "why_tests_cant": "All strings.", "anchors": ["src/iges/mcad_utils.cpp: MCAD_FILEPATH"]}
{"id": "C38", "title": "Handle validity follows object lifetime", "statement": "Over every history of creating, attaching, detaching and destroying models, entities and their handles - in which nothing destroyed is passed to a call, each stored entity is stored by one model and deleted through it, and the type asked of NewAPIEntity is one it knows - no call uses anything destroyed; a handle is valid exactly when it is attached to an entity (or model), which is then alive and of the handle's type, and its parent, if any, is a living model. A handle no call is made on stays attached exactly as long as its entity lives. Exactly the objects each call is meant to destroy are destroyed. Attach succeeds exactly for entities of the handle's type and then replaces the old link; Detach, DelEntity, NewEntity, SetAPIParentIGES and the constructors leave the links one expects.", "quantifier": "every such history, any number of objects and handles", "why_tests_cant": "Unbounded histories; use of something destroyed may go unnoticed in a test.", "anchors": ["src/dllapi/dll_iges_entity.cpp", "src/dllapi/dll_entity110.cpp and the other 14 classes", "src/dllapi/dll_iges.cpp: DLL_IGES, GetRawPtr, NewAPIEntity", "src/iges/iges.cpp: AttachValidFlag, DetachValidFlag, ~IGES", "src/entities/iges_entity.cpp: AttachValidFlag, DetachValidFlag, ~IGES_ENTITY"]}
{"id": "C39", "title": "Transform algebra", "statement": "Composing two coordinate transforms and applying the result equals applying them one after the other, composition is associative, the identity is neutral, and points scale and translate linearly; the matrix reported for a transform entity is the composition of the whole chain of transforms which it refers to.", "quantifier": "all transforms and points over the rationals, every chain of transform entities", "why_tests_cant": "Continuum of values.", "anchors": ["src/geom/mcad_elements.cpp: MCAD_TRANSFORM, MCAD_MATRIX, MCAD_POINT operators"]}
{"id": "C40", "title": "Composite curve membership invariants", "statement": "After every history of calls a composite curve lists no segment twice, not itself and no other composite curve, but only arcs, conics, lines and splines, each of which lists it as referrer. Adding a segment appends it or, when the curve already points to it, does nothing. When the first or last segment is deleted the others stay; when another one is deleted the curve is empty and none of its former segments lists it as referrer.", "quantifier": "every history", "why_tests_cant": "Unbounded histories.", "anchors": ["src/entities/entity102.cpp: AddSegment, unlink"]}
{"id": "C41", "title": "Spline data setter", "statement": "Setting the data of a spline curve succeeds exactly when both arrays are given, the order is at least 2, there are at least as many control points as the order says, and the parameter range is increasing and within the first and last knot; neither the order of the knots nor the signs of the weights is looked at. The data then stored is the data given; writing and reading gives it back (weights permitting), and the first and last control point are reported as its ends. A refusal for the parameter range leaves the old knots and control points with the new counts: the next file then holds a part of the old curve under the new counts, or writing reads outside of the arrays, and asking a curve which never had data for its ends uses a NULL pointer. So does asking for the data of a curve which has some.", "quantifier": "every argument and curve", "why_tests_cant": "Unbounded arrays.", "anchors": ["src/entities/entity126.cpp: SetNURBSData L1000, GetNURBSData L962, GetStartPoint L827, GetEndPoint L885"]}
{"id": "C42", "title": "Generated part and assembly names are not unique", "statement": "The generated name of a part depends only on the second of the request: any number of requests within the same second return the same name, requests in different seconds of the years up to 9999 different ones; likewise for assembly names, which never equal part names.", "quantifier": "every number and times of requests", "why_tests_cant": "History claim.", "anchors": ["src/iges/iges.cpp: GetNewPartName, GetNewAssemblyName"]}
{"id": "C43", "title": "A failing write can destroy the existing file", "statement": "Whenever writing fails after the output file was opened, for instance because an entity's parameter record is empty, the previous content of the target file is gone; when it fails before, the file is untouched.", "quantifier": "every model and every failure point", "why_tests_cant": "All failure points.", "anchors": ["src/iges/iges.cpp: IGES::Write"]}
{"id": "C44", "title": "Comment API of entities", "statement": "Adding, listing, counting, fetching, deleting and clearing comments answers, over every history of calls, exactly what a plain list of texts answers; in particular the array handed out by the listing call is never stale, although it is cached by size.", "quantifier": "every history of comment calls", "why_tests_cant": "Unbounded histories.", "anchors": ["src/entities/iges_entity.cpp: AddComment, GetComments, DelComment, ClearComments"]}
{"id": "C45", "title": "A plane cannot be read back unless it carries optional entities", "statement": "A plane entity without optional entities is formatted without an error although its record is never finished, so that no reader accepts it; a bounded plane with at least one optional entity is written and read back with its form, boundary and all eight numbers.", "quantifier": "every plane with a normal vector, any resolution, any optional entities", "why_tests_cant": "Any coefficient values and any list of optional entities.", "anchors": ["src/entities/entity108.cpp: format L154-300, readPD L384-507"]}
{"id": "C46", "title": "Void shells of a solid do not survive a write and read back", "statement": "A solid with void shells is written without the count of voids: no reader accepts the record when the voids are distinct, and in no case are all the voids read; a solid without voids is restored.", "quantifier": "every manifold solid and any number of voids", "why_tests_cant": "Any number of voids.", "anchors": ["src/entities/entity186.cpp: format L179-278, readPD L369-509"]}
{"id": "C47", "title": "A loop written by the library is never read back completely", "statement": "For every loop whose edges have parameter space curves, the record written holds at least two parameters less per edge than needed, so that what is read, if anything, is smaller than the loop written.", "quantifier": "every loop with any number of edges and of curves per edge", "why_tests_cant": "Any number of edges and curves.", "anchors": ["src/entities/entity508.cpp: format L208-348, readPD L471-655"]}
{"id": "C48", "title": "Vertex lists, edge lists, faces and shells survive a write and read back", "statement": "Vertex lists restore every point in order, edge lists every edge with its five numbers, faces their surface, outer flag and loops, and shells their faces with orientation.", "quantifier": "lists of any length", "why_tests_cant": "Any list length, so any number of lines.", "anchors": ["src/entities/entity502.cpp", "src/entities/entity504.cpp", "src/entities/entity510.cpp", "src/entities/entity514.cpp"]}
{"id": "C49", "title": "Rational B-spline curves and surfaces survive a write and read back", "statement": "Every curve or surface whose counts agree with its lists and whose weights are at least 1e-8 is restored: degrees, flags, knots, weights, control points and parameter ranges; the normal of a planar curve is restored up to normalisation and replaced by the z axis for other curves.", "quantifier": "all degrees, any number of control points and knots, all values", "why_tests_cant": "Any number of control points.", "anchors": ["src/entities/entity126.cpp: format L93-306, readPD L436-746", "src/entities/entity128.cpp: format L94-353, readPD L441-813"]}
{"id": "C50", "title": "Conics, swept surfaces, cylinders and curves on surfaces survive a write and read back", "statement": "Conic arcs restore their eleven numbers, surfaces of revolution axis, generatrix and angles, tabulated cylinders directrix and end point, cylinders (not thinner or flatter than the resolution) height, radius, position and direction, linear extrusions curve, length and direction, and curves on a surface their pointers and creation and preference flags, where the preference is forced when only one representation exists.", "quantifier": "all attribute values, any resolution, any optional entities", "why_tests_cant": "Unbounded values and lists of optional entities.", "anchors": ["src/entities/entity104.cpp", "src/entities/entity120.cpp", "src/entities/entity122.cpp", "src/entities/entity142.cpp", "src/entities/entity154.cpp", "src/entities/entity164.cpp"]}
{"id": "C51", "title": "A cylinder thinner than the resolution gets the resolution as its height", "statement": "Reading back a cylinder whose radius is below the resolution replaces its height by the resolution, whatever the height was, and leaves the radius as it is.", "quantifier": "every cylinder with a radius below the resolution", "why_tests_cant": "Any height and position.", "anchors": ["src/entities/entity154.cpp: readPD L222-405"]}
{"id": "C52", "title": "Colors survive a write and read back, except long names", "statement": "A color with a name of at most 60 characters is restored, shades out of range being replaced by the defaults 85, 20 and 20; a color with a longer name and no optional entities is formatted without an error but its record is never finished, so that no reader accepts it.", "quantifier": "all shades and names", "why_tests_cant": "Names of any length and content.", "anchors": ["src/entities/entity314.cpp: format L123-243, readPD L311-399"]}
{"id": "C53", "title": "Name properties and subfigure instances survive a write and read back", "statement": "A name property restores its text whatever delimiters it holds and however many lines it takes; a subfigure instance restores definition, position and scale.", "quantifier": "all names up to the line limit, all positions", "why_tests_cant": "Names of any length and content.", "anchors": ["src/entities/entity406.cpp: format L185-266, readPD L330-402", "src/entities/entity408.cpp: format L127-206, readPD L294-387"]}
{"id": "C54", "title": "A form number which was never set makes the file unreadable", "statement": "A negative form number, which every entity has whose constructor sets none (shells, planes), is written to the Directory Entry but refused by the reader; shells are refused for every form but 1, although SetEntityForm accepts 2 for them.", "quantifier": "every Directory Entry with such a form number", "why_tests_cant": "Universal failure claim.", "anchors": ["src/entities/iges_entity.cpp: IGES_ENTITY::IGES_ENTITY L40-114, writeDE L1581-1842, readDE L1062-1428", "src/entities/entity514.cpp: readDE L301, SetEntityForm"]}
{"id": "C55", "title": "The array of header lines dangles after the model is cleared", "statement": "As long as lines are only added, the array of header lines handed out holds exactly the lines of the Start Section; but when the model is cleared after the array was handed out and then gets as many lines again, by reading a file or writing the default text, every entry of the array handed out next points to a released text.", "quantifier": "every history of header calls", "why_tests_cant": "Histories are unbounded, and a dangling pointer may look right in a test.", "anchors": ["src/iges/iges.cpp: IGES::GetHeaders L1864-1889, AddToHeader L1898-1931, Clear L404-419"]}
{"id": "C56", "title": "Rescaling a conic moves its end points off the curve", "statement": "Rescaling a conic arc (as unit conversion does) multiplies all coefficients of its equation alike, so that the curve stays exactly where it is, while the end points are scaled; for ellipses and hyperbolas in standard position the end points therefore leave the curve for every factor but 1, -1 and 0.", "quantifier": "every conic and every factor", "why_tests_cant": "Universal failure claim over the reals.", "anchors": ["src/entities/entity104.cpp: IGES_ENTITY_104::rescale L357-373"]}
{"id": "C57", "title": "End points of curves follow unit conversion and scaling", "statement": "The start and end points reported by curves, through composite curves and any chain of transforms, denote the same places after a unit conversion and scale with the model when the model scale is changed, unless a curve in the parameter space of a surface is among the parts.", "quantifier": "every model, every curve, every chain of transforms", "why_tests_cant": "Unbounded nesting of composites and transforms.", "anchors": ["src/entities/entity102.cpp: GetStartPoint L635-649, GetEndPoint L652-666", "src/entities/entity124.cpp: GetTransformMatrix L475-486, rescale L216-226", "src/entities/entity100.cpp L403-441", "src/entities/entity110.cpp L146-156, L315-338", "src/entities/entity126.cpp: rescale L309-383, GetStartPoint L827, GetEndPoint L882"]}
{"id": "C58", "title": "Replacing the extension of a path", "statement": "Replacing the extension of a path gives the path with the new extension, and all later questions are answered for the new path, as long as nothing was asked before and the new extension has no leading period. With a leading period no period at all is put in front of it. Once the old extension was reported it is not removed but the new one is put behind it, and once the file or base name was reported the file name reported afterwards is not the last part of the path. Appending a part to a path always reports failure and always puts a separator first, also in an empty path.", "quantifier": "every path, every extension, every history of questions", "why_tests_cant": "All strings and histories.", "anchors": ["src/iges/mcad_utils.cpp: MCAD_FILEPATH::SetExtension L351-385, Append L394-414"]}
{"id": "C59", "title": "Models cannot be saved under a path without a period", "statement": "Writing a model to a path without any period raises an exception after the target was opened and emptied, whatever the model; reading such a path raises it for every file which is otherwise readable. Every other path is written under its last part as file name.", "quantifier": "every model, every path, every state of the target", "why_tests_cant": "Universal failure claim over all models and paths.", "anchors": ["src/iges/iges.cpp: IGES::Write L705-716, IGES::Read L533-545", "src/iges/mcad_utils.cpp: MCAD_FILEPATH::GetBaseName L286-319"]}
{"id": "C60", "title": "Setters change one reference, or lose one", "statement": "A setter of a font, level, view, transform, label or colour entity changes that reference of that entity only: to the given entity on success, to none on failure, so that a refused call loses the reference held before. Setting a number for font, level or colour likewise removes the reference, whether the number is accepted or not. Transforms accept exactly transforms other than the entity itself which do not have the entity as their own transform and which the entity does not hold otherwise. Adding an optional entity, a member or a segment appends it; setting a part sets it or, on failure, leaves it or loses it. No call changes the references of another entity.", "quantifier": "every state any history of calls leads to, every argument", "why_tests_cant": "Unbounded entity graphs and histories.", "anchors": ["src/entities/iges_entity.cpp: SetLineFontPattern, SetLevel, SetView, SetTransform, SetLabelAssoc, SetColor L1867-2549, AddOptionalEntity L2858-2900", "src/entities/entity120.cpp, entity122.cpp, entity142.cpp, entity144.cpp, entity164.cpp, entity180.cpp, entity186.cpp, entity308.cpp, entity408.cpp, entity514.cpp: setters"]}
{"id": "C61", "title": "Deleting an entity", "statement": "Deleting an entity removes it from the model and from every entity which referred to it; no other reference of any entity is lost, except that a composite curve which loses an inner segment and an edge list which loses an edge curve lose others too. Entities which did not refer to it keep all their references.", "quantifier": "every state any history of calls leads to, every entity which is neither one of several operands of a tree nor a vertex list in use", "why_tests_cant": "Unbounded entity graphs and histories.", "anchors": ["src/iges/iges.cpp: IGES::DelEntity L976-1001", "src/entities/iges_entity.cpp: ~IGES_ENTITY L117, unlink L280", "src/entities/entity*.cpp: unlink"]}
{"id": "C62", "title": "Clearing a model", "statement": "Clearing a model destroys exactly the entities it stores and leaves the others with consistent references, provided no tree has two operands and every vertex list is stored after the edge lists using it. Without either condition it may use a destroyed entity: a tree stored between its two operands, or a vertex list stored before an edge list using it.", "quantifier": "every state any history of calls leads to", "why_tests_cant": "Unbounded entity graphs and histories; use of a destroyed entity may go unnoticed in a test.", "anchors": ["src/iges/iges.cpp: IGES::Clear L404-419, ~IGES", "src/entities/entity180.cpp: unlink", "src/entities/entity504.cpp: unlink"]}
{"id": "C63", "title": "Removing a member leaves a stale referrer", "statement": "Removing a member of a subfigure, or an inner boundary of a trimmed surface, always leaves the subfigure or surface in the list of referrers of the removed entity. When the subfigure is deleted afterwards the entity lists a deleted one, and deleting it then uses the deleted one.", "quantifier": "every state any history of calls leads to, every member", "why_tests_cant": "Universal claim over histories; use of a destroyed entity may go unnoticed in a test.", "anchors": ["src/entities/entity308.cpp: DelDE", "src/entities/entity144.cpp: DelPTI"]}
{"id": "C64", "title": "Faces do not register with their surface and bounds", "statement": "A face which is given a surface or a bound points to it without being listed as its referrer, whatever the state before. Deleting the surface leaves the face with a pointer to a deleted entity, which deleting the face then follows.", "quantifier": "every state any history of calls leads to", "why_tests_cant": "Universal claim over histories; use of a destroyed entity may go unnoticed in a test.", "anchors": ["src/entities/entity510.cpp: SetSurface, AddBound, unlink, ~IGES_ENTITY_510"]}
{"id": "C65", "title": "Deleting a vertex list in use", "statement": "Deleting a vertex list which an edge list uses always calls a method of the half destroyed vertex list.", "quantifier": "every state any history of calls leads to", "why_tests_cant": "Universal claim over histories; undefined behaviour may go unnoticed in a test.", "anchors": ["src/entities/entity504.cpp: unlink", "src/entities/iges_entity.cpp: ~IGES_ENTITY L117"]}
{"id": "C66", "title": "Deleting an operand of a tree", "statement": "When one of two operands of a boolean tree is deleted the tree forgets both, but the other operand goes on listing the tree as its referrer, also after the tree is deleted, and deleting that operand then uses the deleted tree.", "quantifier": "the history creating two blocks and their union, then deleting a block, the tree and the other block", "why_tests_cant": "Use of a destroyed entity may go unnoticed in a test.", "anchors": ["src/entities/entity180.cpp: unlink L297"]}
{"id": "C67", "title": "Other calls which leave dangling references", "statement": "A transform and an entity of an unsupported type keep their pointer to the optional entity after it is deleted. Deleting a property which is its own optional entity, and setting no directrix for a tabulated cylinder, have undefined behaviour. A deleted loop stays a referrer of its edge list.", "quantifier": "tabulated cylinders: every state; otherwise the histories named", "why_tests_cant": "Use of a destroyed entity may go unnoticed in a test.", "anchors": ["src/entities/iges_entity.cpp: AddOptionalEntity L2858, unlink L280", "src/entities/entity124.cpp: unlink", "src/entities/entityNULL.cpp: unlink", "src/entities/entity122.cpp: SetDE", "src/entities/entity508.cpp: ~IGES_ENTITY_508"]}
{"id": "C68", "title": "Validity flags of the caller", "statement": "Attaching a flag twice to the same object has the effect of attaching it once. Destroying an object sets exactly the flags attached to it to false and leaves every other object and flag alone. A flag attached to two objects turns false when one of them is destroyed although the other one lives. Destroying an object after a flag attached to it has gone writes through a stale pointer.", "quantifier": "every state, object and flag", "why_tests_cant": "Universal claim; writes through stale pointers may go unnoticed in a test.", "anchors": ["src/entities/iges_entity.cpp: AttachValidFlag L224, ~IGES_ENTITY L117", "src/iges/iges.cpp: AttachValidFlag L290"]}
{"id": "C69", "title": "Deleting a stored entity through its handle", "statement": "DelEntity of a handle whose entity is stored in a model destroys the entity but leaves it in the model's list, whatever the history before; clearing or destroying the model, or destroying its handle, then destroys the entity a second time.", "quantifier": "every state any sane history leads to, every handle and model", "why_tests_cant": "Universal claim over histories; double destruction may go unnoticed in a test.", "anchors": ["src/dllapi/dll_iges_entity.cpp: DelEntity L164", "src/iges/iges.cpp: Clear L404"]}
{"id": "C70", "title": "Entities made through a model's handle", "statement": "NewAPIEntity with a type it knows adds two entities to the model: one the new handle is attached to, and a second one no handle is attached to. With any other type - also 406, although it has a class of handles - it returns false and leaves a destroyed entity in the model's list, so that clearing the model or destroying it or its handle uses the destroyed entity.", "quantifier": "every state any sane history leads to, every type", "why_tests_cant": "Universal claim over histories and types.", "anchors": ["src/dllapi/dll_iges.cpp: NewAPIEntity L213-350"]}
{"id": "C71", "title": "Spline surface data setter", "statement": "Setting the data of a spline surface succeeds exactly when all three arrays are given and in both directions the order is at least 2, there are at least as many control points as the order says and the parameter range is increasing and within the first and last knot. The data then stored is the data given, a direction is marked closed exactly when it is said to be periodic, and writing and reading gives the data back. A refusal for a parameter range leaves the old arrays with the new counts. Asking for the data of a surface which has some uses a NULL pointer.", "quantifier": "every argument and surface", "why_tests_cant": "Unbounded arrays.", "anchors": ["src/entities/entity128.cpp: SetNURBSData L941, GetNURBSData L882"]}
{"id": "C72", "title": "The planar flag of a spline curve", "statement": "A curve of at least three control points in a plane of which no three successive ones are on a line is marked planar with a normal perpendicular to the plane. Of a curve marked planar, no three successive control points of which are on a line, each step to the next point leaves the plane of the three before by at most 3.2 * 10^-8 of its length. A straight line with three or more control points is marked planar with the z axis as its normal, one with two is not. A planar curve with a straight run outside of a plane of constant z is not marked planar, and a curve which is not planar may be marked planar when a control point is given twice.", "quantifier": "every list of control points", "why_tests_cant": "Unbounded lists of points; geometric claim.", "anchors": ["src/entities/entity126.cpp: hasUniquePlane L1117", "src/geom/mcad_helpers.cpp: CalcNormal L137, CheckNormal L79, PointMatches L42"]}
{"id": "C73", "title": "Weights which make a file unreadable", "statement": "A rational spline curve or surface with a weight below 10^-8 - zero, negative or tiny - is accepted by the setter and written without complaint, and the record is refused by the reader; with all weights from 10^-8 on it is read back.", "quantifier": "every curve and surface", "why_tests_cant": "Unbounded arrays and real numbers.", "anchors": ["src/entities/entity126.cpp: SetNURBSData L1000, readPD L573-603", "src/entities/entity128.cpp: SetNURBSData L941"]}
{"id": "C74", "title": "Whole files survive writing and reading", "statement": "A model whose header lines have at most 72 characters, whose settings satisfy the conditions under which a Global Section can be read (C12-C14), and whose entities - at least one, in at most 9999998 parameter lines, without comments - have directory members which fit (C17, C54) and data of a kind which can be read back (C26-C30, C45-C53), is written by Write; and reading the file gives back the header lines up to blanks at the end, the settings, and the same entities in the same order, each with its type, number, directory members, references, optional references and data, the reals within the stated rounding.", "quantifier": "every such model, any number and mix of entities of the 22 types which can be read back", "why_tests_cant": "Unbounded sequences of entities; every entity's record has to end where the next one begins.", "anchors": ["src/iges/iges.cpp: Write L628-821, Read L422-624, readDE L1548-1605, readPD L1608-1632, readTS L1635-1742"]}
{"id": "C75", "title": "One entity which cannot be read makes the whole file unreadable", "statement": "When Write succeeds although one of the entities has a level entity, a form its type does not know, a negative line weight or a negative subscript, or (at any place among newline-free entities of whatever kind) data which readPD refuses - an arc whose radii differ, a spline weight below 10^-8, a trimmed surface without outer boundary, a boolean tree, a solid with voids - or a comment not looking like one of its own parameter lines, then reading the file back fails: no entity of it can be recovered, and Write gave no indication.", "quantifier": "every model with such an entity, at every place", "why_tests_cant": "Universal over the other entities of the file, read or not.", "anchors": ["src/iges/iges.cpp: Write L628-821, Read L422-624", "src/entities/iges_entity.cpp: readDE L1062-1428, readPD L1430-1578"]}
{"id": "C76", "title": "The resolution is converted before the entities are", "statement": "When the Global Section ends with an application note, its resolution is converted to millimetres at scale 1 while the entities behind it are read in units of the file; without one both are in units of the file. So in a file in metres with a resolution of a millimetre and an application note every arc of radius up to 3.4 metres counts as a point, and the whole file is refused by the library which wrote it; the same model without the note is read.", "quantifier": "every resolution, scale, unit, note and arc with at most six digits, at any place in the file", "why_tests_cant": "Universal over settings and the rest of the file.", "anchors": ["src/iges/iges.cpp: readGlobals L1029-1545, Read L422-624", "src/entities/entity100.cpp: readPD"]}
{"id": "C77", "title": "Files whose references are in order are connected as they say", "statement": "Take a file in which every reference leads to an entity of a supported type and of the kind its place asks for (transforms to transforms, colours to colour definitions, optional entities to properties, composite curves to simple curves, and so on), nobody refers twice to the same entity, to itself or to somebody who refers back, vertex indices are within their lists, and the end points of successive segments and the closed curves of extrusions can be computed. Then the last phase of Read succeeds: every entity has exactly the references the file gives it, and lists exactly the entities which refer to it. If moreover no entity lacks its parts or a needed user, Read keeps all entities, in the order of the file.", "quantifier": "every such file, any number of entities, in any order", "why_tests_cant": "Unbounded graphs of references, connected one entity after the other with checks which depend on the state so far.", "anchors": ["src/entities/iges_entity.cpp: IGES_ENTITY::associate L461-1053, addReference L362", "src/entities/entity*.cpp: associate", "src/iges/iges.cpp: Read L602-624"]}
{"id": "C78", "title": "What Read keeps of a file", "statement": "When a file as in C77 has no optional entities of transforms, no loops, no trees with two operands and no references of unsupported entities, Read succeeds and the model is consistent; every later claim about histories of calls (C23, C31, C40, C60-C66) applies to it. Entities which lack their parts, are of an unsupported type, or which need a user and have none are not kept; every group of connected entities without such an entity is kept with all its references; nothing gets a reference the file does not give it.", "quantifier": "every such file", "why_tests_cant": "Unbounded graphs of references.", "anchors": ["src/iges/iges.cpp: Read L602-624, Cull L1746-1781", "src/entities/entity*.cpp: associate, isOrphaned"]}
{"id": "C79", "title": "Read accepts a file only if every reference is in order", "statement": "If Read accepts a file, then every Directory Entry number used as a reference leads to another entity of the file - the transform to a transformation matrix, level and colour to a property of form 1 and a colour definition unless the type found there is not supported; every optional pointer leads to a property; the parts of each class lead to entities of the classes allowed there (segments of composite curves to simple curves, axis and generatrix of a surface of revolution to a line and a curve, trimmed surfaces to surfaces and boundaries, operands to solids, shells, faces, loops, edges and vertex lists to each other as the standard says), the outer part of a boundary curve is present, and every vertex index of an edge is between 1 and the number of points of its list. Only parity is not tested everywhere: an even number n leads to the entity with number n + 1.", "quantifier": "every file, any number of entities", "why_tests_cant": "The converse of C77 over all graphs of references.", "anchors": ["src/entities/iges_entity.cpp: IGES_ENTITY::associate L461-1053", "src/entities/entity*.cpp: associate", "src/iges/iges.cpp: Read L602-624"]}
{"id": "C80", "title": "Pointers made by Read are of the kind their methods take them for", "statement": "After the last phase of Read, whether it succeeded or failed, every pointer of every entity which is left leads to an entity of one of the classes its place asks for, so that no static cast done later on it is wrong; font, view and label pointers are never set (no class of the library can be referred to there), and a failed Read leaves all entities of the file in the model.", "quantifier": "every file, accepted or refused at any point", "why_tests_cant": "Type safety over all graphs of references and all points of failure.", "anchors": ["src/entities/iges_entity.cpp: IGES_ENTITY::associate L461-1053", "src/entities/entity*.cpp: associate, unlink", "src/iges/iges.cpp: Read L602-624, Cull L1746-1781"]}
{"id": "C81", "title": "An entity which refers to itself", "statement": "A file in which an entity names itself in its Directory Entry is never accepted. If it is the first entity of the file and the number is its first reference (and, for a transform, the entity is a transform), Read does not refuse it but calls a method through a null pointer.", "quantifier": "every such file, whatever comes after the first entity", "why_tests_cant": "Universal over files; the second half is undefined behaviour.", "anchors": ["src/entities/iges_entity.cpp: IGES_ENTITY::associate L488-530 and the like"]}
{"id": "C82", "title": "An extrusion stored before its composite curve is refused", "statement": "Read tests whether the curve of a Solid of Linear Extrusion is closed when it connects the extrusion. The composite curve has no segments until it is connected itself, so a file which gives the extrusion before its composite curve is never accepted; in every accepted file the composite curve of an extrusion comes first.", "quantifier": "every file", "why_tests_cant": "Universal over files and orders of entities.", "anchors": ["src/entities/entity164.cpp: associate L82-129", "src/entities/entity102.cpp: IsClosed L677"]}
{"id": "C83", "title": "Unsupported entities keep pointers to destroyed entities", "statement": "An entity of an unsupported type does not forget a pointer when the entity it points to is destroyed. A file with a subfigure definition without members followed by an entity of an unsupported type whose structure number is that definition makes Read use a destroyed entity, whatever the other members of the two.", "quantifier": "every unsupported type, every such pair of entities", "why_tests_cant": "Undefined behaviour inside a call which would otherwise succeed.", "anchors": ["src/entities/entityNULL.cpp: unlink L183", "src/entities/iges_entity.cpp: ~IGES_ENTITY L117-221", "src/iges/iges.cpp: Cull L1746-1781"]}
{"id": "C84", "title": "What an unusual file leaves behind", "statement": "It is not true that all pointers of an accepted model stay valid when an entity is deleted with DelEntity: a shell which lists a face twice is accepted, and keeps a pointer to the face deleted. It is not true that a model can always be cleared after a failed Read: an entity of a wrong class named as colour keeps the one naming it among its referrers, and Clear, or the destructor, uses the latter after destroying it.", "quantifier": "existence of such files", "why_tests_cant": "Counterexamples to claims over all files.", "anchors": ["src/entities/entity514.cpp: associate", "src/entities/iges_entity.cpp: IGES_ENTITY::associate L843-985", "src/iges/iges.cpp: Clear L404-419"]}
{"id": "C85", "title": "A model written to a file is read back with its references", "statement": "Let the entities of a model refer to each other in order: every reference leads to an entity of the class its place asks for, nobody is left out, and there are no circles or the file has no application note. If each entity can be written and read (C74), then Write followed by Read into a new model succeeds and gives the same number of entities in the same order; every pointer leads to the entity in the place it led to before, every entity knows exactly those which refer to it, nothing is culled, and data, settings and Start Section are those of C74, with the lengths converted to millimetres if Read asks for a conversion.", "quantifier": "every document, every plan of references, every file name and time, any number of entities", "why_tests_cant": "The claim joins text, Directory Entries, records, pointers, conversion and culling for all models; a test can only compare single files.", "anchors": ["src/iges/iges.cpp: Write L628-820, Read L422-624", "src/entities/iges_entity.cpp: associate L461-1053", "src/entities/entityNNN.cpp: associate, readPD, format"]}
{"id": "C86", "title": "Subfigures which contain each other make Read run forever", "statement": "When the entities of a file must be converted to millimetres, a NURBS curve looks for a curve on a surface among the entities which refer to it, the first of those which refer to that, and so on. If that way runs in a circle, Read never returns. Subfigures which contain instances of each other are such a circle: Write saves them, and Read, which accepts them in a file without application note, does not come back from one with a note and in units other than millimetres.", "quantifier": "every document with such a circle, every file name and time", "why_tests_cant": "Absence of termination cannot be observed; which files do it is a statement over all graphs.", "anchors": ["src/entities/entity126.cpp: rescale L309-333", "src/iges/iges.cpp: Read L613-618"]}
{"id": "C87", "title": "Only splines are left alone in the parameter space of a surface", "statement": "When the units of a model are converted, a NURBS curve which is only used as the curve B of a curve on a surface, or in a part of it, keeps its first and second coordinates and weights, and only its third coordinates are multiplied; a NURBS curve elsewhere is multiplied in all coordinates. Curves of any other type are multiplied in all coordinates even where their coordinates are parameters of a surface, so that a line bounding a trimmed surface no longer lies on it.", "quantifier": "every plan of references, every data, every factor", "why_tests_cant": "Universal over graphs and reals; the second half shows a defect for all factors other than 1.", "anchors": ["src/entities/entity126.cpp: rescale L309-383", "src/entities/entity110.cpp: rescale L146-156", "src/entities/entity142.cpp: GetBPTR L594"]}
{"id": "C88", "title": "Export packs the model and moves all of it", "statement": "When a model is exported into another one (units, scales, line weights and gradations being sensible, books in order), and it has something to pack, Export succeeds and the handle is a new Subfigure Definition of the receiver. It holds exactly the instances of subfigures on top (those to which nobody refers but a definition nobody refers to), without such the trimmed surfaces nobody refers to, without such the solids, in the order of the model. All entities of the exported model, none twice, belong to the receiver after its own and the package; the contents are dependent and know the package; no other pointer, referrer or flag of any entity of the two models changes, and pointers and referrers agree. What the contents are is determined by the model. Any two models made with the library's calls can stand side by side like this.", "quantifier": "every pair of models of any size which share nothing", "why_tests_cant": "Unbounded heaps; frame conditions over all entities.", "anchors": ["src/iges/iges.cpp: Export L2381-2620, AddEntity L948-973, NewEntity L825-946", "src/entities/entity308.cpp: AddDE"]}
{"id": "C89", "title": "Export converts data and line weights to the receiver's", "statement": "Lengths of the entities handed over, times the length of the unit and divided by the scale, are those they were, as for unit and scale changes (C32, C34); the exported model has the receiver's unit and scale. Line weight 0 stays, others are multiplied by the receiver's gradations divided by those of the model as whole numbers, and become 1 if the product is 0; they stay within the receiver's gradations and in order. The same gradations change nothing; a receiver with fewer gradations turns every weight other than 0 into 1.", "quantifier": "every model of supported entities, every unit, scale and gradation", "why_tests_cant": "Universal over reals and integers.", "anchors": ["src/iges/iges.cpp: Export L2407-2434, ChangeModelScale, ConvertUnits"]}
{"id": "C90", "title": "Failures which Export does not report", "statement": "Export answers true when the conversion failed: between user defined units and others, or with a scale out of bounds, the entities are handed over as they are; with an unsupported entity those before it are converted and those after it are not. Entities which are not of the contents of the package (loose surfaces, solids and curves beside instances) are moved but cannot be reached from the package. With nothing to pack the answer is true, the handle is NULL and the entities stay where they are, though they were converted. A model with maxLinewidthGrad 0 is a division by zero.", "quantifier": "every such pair of models", "why_tests_cant": "Universal; includes undefined behaviour.", "anchors": ["src/iges/iges.cpp: Export L2381-2620"]}
{"id": "C91", "title": "A model exported into itself is emptied", "statement": "Export with the model itself as receiver answers true, and the model has no entities afterwards; all of them, and the package with the contents of C88, still exist and belong to nobody.", "quantifier": "every model with something to pack", "why_tests_cant": "A statement about all heaps; the leak is not observable in results.", "anchors": ["src/iges/iges.cpp: Export L2580-2601"]}
{"id": "C92", "title": "Names of packages", "statement": "The package is named after the file of the exported model, up to the last dot of the whole path unless it is the first character: for a file without extension in a directory with a dot, the name is that of the directory up to the dot, and two models of the same file give the same name. Without file name, the name is generated from the time, as an assembly if two or more instances are packed and as a part otherwise.", "quantifier": "every file name, every time", "why_tests_cant": "Universal over strings.", "anchors": ["src/iges/iges.cpp: Export L2603-2618, GetNewPartName, GetNewAssemblyName"]}
{"id": "C93", "title": "Nesting depth of subfigures", "statement": "The depth written with a Subfigure Definition is the number of definitions one within the other, as they are or through instances, in the deepest such chain below it. For a definition which is within itself, which the calls and Read allow, the recursion that computes it, and hence Write, never ends.", "quantifier": "every graph the library's calls or Read lead to", "why_tests_cant": "Non-termination and unbounded graphs.", "anchors": ["src/entities/entity308.cpp: getDepthLevel L613-655, format L155", "src/entities/entity408.cpp: getDepthLevel L463-476"]}
{"id": "C94", "title": "Which lines and arcs are accepted", "statement": "Two points count as one exactly when the square of their distance is at most 3.0001 times the square of the resolution, or 3e-30, or, when one is more than 3.16e7 from the origin, 3e-30 times the square of the larger distance from the origin; this is reflexive and symmetric but not transitive. SetParams accepts a line exactly between two points with z 0 which do not count as one, and an arc exactly when centre and ends have z 0, neither end counts as one point with the centre, and the ends are equally far from the centre up to 1e-8 or count as one point. After a refusal the segment is empty.", "quantifier": "all points, all resolutions", "why_tests_cant": "Universal over reals with several tolerances.", "anchors": ["src/geom/mcad_helpers.cpp: PointMatches L42-76", "src/geom/mcad_segment.cpp: SetParams L152-253"]}
{"id": "C95", "title": "An accepted arc is the one asked for", "statement": "The segment keeps centre, start, end and orientation; it begins exactly at the start, ends within 1e-8 of the end, turns the way asked for by more than 0 and less than a whole turn, and the angle given out as its start is above -pi and not above pi. When start and end count as one point it is the whole circle through the start; its orientation is counterclockwise whatever was asked for, and its start lies to the right of the centre.", "quantifier": "every accepted call of SetParams", "why_tests_cant": "Trigonometry over all angles and orientations.", "anchors": ["src/geom/mcad_segment.cpp: SetParams L178-253, GetStartAngle and others L1554-1621"]}
{"id": "C96", "title": "Bounding boxes of segments contain them and touch them", "statement": "GetBoundingBox of a circle contains all points of the circle and each side is touched by one; the same holds for an arc up to the distance of its recorded ends from the circle (1e-8 after SetParams), wherever its angles begin; and for a line, except that one whose ends are less than 1e-8 apart in x may stick out of its box by less than 1e-8.", "quantifier": "every line, arc and circle and every point on it", "why_tests_cant": "Universal over a continuum of points.", "anchors": ["src/geom/mcad_segment.cpp: GetBoundingBox L1359-1500"]}
{"id": "C97", "title": "Reversing a segment, its midpoint and its length", "statement": "reverse exchanges start and end and turns the way round; the segment covers the same points, has the same length, the same box, and an arc gives out the same counterclockwise start and end; twice is the identity; circles and empty segments stay. GetMidpoint is the point reached after half of the way, for both directions; that of a circle is where it starts. GetLength is the distance of the ends, the radius times the angle covered, or 2 pi times the radius.", "quantifier": "every segment", "why_tests_cant": "Universal over reals.", "anchors": ["src/geom/mcad_segment.cpp: reverse L1625-1647, GetMidpoint L1506-1539, GetLength L256-282"]}
{"id": "C98", "title": "Splitting lines", "statement": "Split at one or two points of a line, those which count as one with an end being left out first, succeeds unless none is left; the line and the new segments then lead from the start through the points in the order in which they lie on the line to the end, and each is a line that SetParams accepts; points off by more than 1e-8 are refused, and a refused segment of any kind stays as it was. If the two points left count as one, the answer is still true and the new segment between them is empty.", "quantifier": "every line, every list of points", "why_tests_cant": "Universal over reals; the failure of an ignored inner call only shows in the list.", "anchors": ["src/geom/mcad_segment.cpp: Split L352-427, splitLine L1649-1796"]}
{"id": "C99", "title": "Splitting arcs", "statement": "If the start angle of an arc is not above pi, as SetParams leaves it, Split at one or two points of it succeeds unless they are its ends; the pieces lead from start to end through the points, have the same centre, radius and orientation, together cover exactly the points of the arc, and their lengths add up to its length; the points are those whose squared distance from the centre differs from the squared radius by at most 1e-8. New pieces have their start angle in range again; the piece kept of a clockwise arc need not. A clockwise arc which starts beyond pi accepts points of the circle between pi and its start, which it does not cover, and makes a piece with negative length; such an arc arises by splitting an accepted one.", "quantifier": "every arc, every list of points", "why_tests_cant": "Trigonometry over all angles; the defect needs two splits of one arc.", "anchors": ["src/geom/mcad_segment.cpp: Split L352-427, splitArc L1799-1936, NORMALIZE_ANGLES L40-53"]}
{"id": "C100", "title": "Splitting circles", "statement": "Split of a circle needs exactly two points of it which are 1e-8 or more apart along an axis; it becomes the counterclockwise arc from the second to the first and the new segment is the one from the first to the second. They cover the circle, and their lengths add up to its length, if the points have different bearings from the centre, which is certain for a radius of 2 or more. If the bearings are the same both arcs have length 0 and the circle is lost; this happens for small circles.", "quantifier": "every circle, every pair of points", "why_tests_cant": "Tolerances on squares against tolerances on coordinates, over all radii.", "anchors": ["src/geom/mcad_segment.cpp: splitCircle L1939-2023"]}
{"id": "C101", "title": "Where two circles meet", "statement": "GetIntersections of two circles answers: false without a flag when they are apart, and then they share no point; false and IDENT when centres and radii agree up to about 1e-3; otherwise false and TANGENT when the distance of the centres is within 1e-3 of the sum of the radii; otherwise false and ENCIRCLES or INSIDE when one lies in the other; in all other cases true with exactly the two points they share, in the order in which they are met counterclockwise on the first circle from its right side on.", "quantifier": "every pair of circles", "why_tests_cant": "Universal over reals; completeness (no other common point) cannot be observed by a test.", "anchors": ["src/geom/mcad_segment.cpp: GetIntersections L286-348, calcCircleIntercepts L430-486, checkCircles L490-545"]}
{"id": "C102", "title": "Where arcs meet arcs and circles", "statement": "If the circles of the two do not meet, the answer is false and they share no point. If they cross (not touching, not alike, and not two arcs with the same ends), the points reported are exactly those common to both circles at which the angle about the centre of the first lies in the range of each arc: for an arc asked about a circle these are the common points. Arcs which touch from outside up to 1e-3 give false, with TANGENT exactly if each extends towards the centre of the other; a circle and an arc of the same circle share the ends of the arc with EDGE; two arcs with the same ends report these ends with INSIDE exactly if the first has the smaller radius and its midpoint is in the circle of the second, else OUTSIDE. If the second is an arc its range is applied to the angle about the wrong centre: a circle of radius 5 about the origin asked about the left half of one about (8,0) misses both common points, and asked about the right half reports two points that are not on it. Two overlapping arcs of one circle, the right and the upper half, are reported to share an edge from a point which is only on the first to one which is only on the second.", "quantifier": "every pair of arcs or circles with at least one arc", "why_tests_cant": "Universal over reals; the defects depend on the position of the second centre.", "anchors": ["src/geom/mcad_segment.cpp: checkArcs L549-881"]}
{"id": "C103", "title": "Where lines meet arcs and circles", "statement": "Let D be 4 times the squared length of the line times the difference of the squared radius and the squared distance of the line from the centre. For a circle, in either order: if D is 1e-6 or more the points reported are exactly the common points, counterclockwise from the right side of the circle on, with ENDPOINT exactly if one is within 1e-8 of the length of an end of the line; if D is -1e-6 or less there is none and none is reported; in between, the point of the line next to the centre is reported as TANGENT if it is on the line. For an arc with D of 1e-6 or more the points reported are exactly those on the line and the circle which are on the arc or within 1e-14 of an end of the segment which is asked, counterclockwise from the start of the arc on; with D negative there is none. So a line whose end is on the circle but not on the arc is reported to meet the arc when the line is asked, and not when the arc is asked; and with one point on the arc, whether ENDPOINT is set depends on the direction in which the line was drawn.", "quantifier": "every line with every arc or circle, asked either way", "why_tests_cant": "Universal over reals; completeness cannot be observed.", "anchors": ["src/geom/mcad_segment.cpp: checkArcLine L885-1152"]}
{"id": "C104", "title": "Where two lines meet", "statement": "If the cross product of the two directions is 1e-6 or more in size, the point reported is the only one on both straight lines, and it is reported exactly if it is on both segments extended by 1e-8 of their length, with ENDPOINT exactly if it is within 1e-8 of the length of an end of one. The bound is not relative to the lengths: two lines of length 8e-4 crossing at a right angle are reported not to meet. Lines which overlap without sharing an end are reported not to meet, and lines in a row are reported to share an edge, with the same point twice.", "quantifier": "every pair of lines", "why_tests_cant": "Universal over reals; an absolute tolerance only fails for short lines.", "anchors": ["src/geom/mcad_segment.cpp: checkLines L1156-1355"]}
{"id": "C105", "title": "Adding segments to an outline", "statement": "AddSegment refuses a null pointer, a segment without type, anything once the outline is closed, a circle unless the outline is empty, and a line or arc which does not start where the last one ends up to 1e-8; it then answers false, sets the error flag and leaves the outline as it was. Everything else is taken, and the outline is closed exactly by a circle or when the end counts as one point with the first start; it then holds the segments as drawn or the same ones travelled the other way round. While all points are within 10^9 - 1 of the origin along each axis the effect is defined; closing an outline which has a point left of -2^31 - 1 converts a double to an int it does not fit, which is undefined behaviour.", "quantifier": "every outline, every segment", "why_tests_cant": "Universal over sequences of calls; undefined behaviour cannot be asserted by a test.", "anchors": ["src/geom/mcad_outline.cpp: AddSegment L421-608, adjustBoundingBox L2199-2226"]}
{"id": "C106", "title": "Outlines are closed courses", "statement": "IsContiguous answers true exactly for a closed outline which begins with a circle or whose segments each start where the one before ends, up to 1e-8, the first where the last ends. After any sequence of AddSegment calls an outline is, while open, a course of lines and arcs in this sense, and when closed a single circle or a closed course of at least two lines and arcs; IsContiguous then just says whether it is closed.", "quantifier": "every sequence of calls with every segment", "why_tests_cant": "Invariant over all sequences of calls, including refused ones.", "anchors": ["src/geom/mcad_outline.cpp: IsContiguous L235-276, AddSegment L421-608"]}
{"id": "C107", "title": "Which way round an outline runs", "statement": "An outline of lines has, once closed, a signed area (the integral of -y dx along it) which is not negative: it runs counterclockwise however it was drawn. With arcs this is only true of the polygon which leads through the middle of each arc: an arc of more than half a circle about the origin from (4,3) to (4,-3), followed by lines through (-3,-3) and (-3,3), is drawn counterclockwise and is turned to run clockwise when it is closed.", "quantifier": "every closed outline made with AddSegment", "why_tests_cant": "Integral over all outlines; the defect needs an arc which bulges beyond its two chords.", "anchors": ["src/geom/mcad_outline.cpp: AddSegment L505-590"]}
{"id": "C108", "title": "The box of an outline", "statement": "Every point of an outline is in its box up to 1e-8. When closed, the box is a square with integer corners and sides of even length, it goes less than 1 + 1e-8 too far to the left and below, and its side exceeds by less than 3 + 2e-8 some distance along an axis between two points of the outline.", "quantifier": "every outline made with AddSegment of segments made with SetParams", "why_tests_cant": "Bounds over all points of all segments.", "anchors": ["src/geom/mcad_outline.cpp: AddSegment L421-608, adjustBoundingBox L2199-2226", "src/geom/mcad_segment.cpp: GetBoundingBox L1357-1504"]}
{"id": "C109", "title": "Inside a circular outline", "statement": "Let x be 5 beyond the nearer vertical side of the box, and let the clearance of a point be 4 times its squared horizontal distance from x times the difference of the squared radius and its squared height over the centre, taken positive. With clearance of 1e-6 or more IsInside answers true for a point nearer to the centre than the radius and false for one further away. With less, it answers whether the centre is horizontally between the point and x: a point 80 radii away from a circle of radius 0.01, level with its top, is said to be inside. An open outline answers false with an error.", "quantifier": "every circular outline, every point in the plane", "why_tests_cant": "Universal over reals; the defect needs a point which is level with the top or bottom.", "anchors": ["src/geom/mcad_outline.cpp: IsInside L280-415", "src/geom/mcad_segment.cpp: checkArcLine L885-1152"]}
{"id": "C110", "title": "Inside an outline of lines", "statement": "Take an outline of lines which follow each other exactly, all within 10^7 of the origin, and a point which keeps clear of it: level with an end of a line exactly or by at least 1e-7 off, not almost on a line, no line almost level. Then IsInside answers whether the number of lines which pass to the right of the point is odd, where a line passes if it crosses or reaches up to the height of the point (its lower end does not count); on the left the number has the same parity, so the answer does not depend on the side to which the code looks. With an arc among the segments this fails: for the disc of radius 5 from which the sector between (-4,-3) and (0,-5) is cut out, IsInside is true at (-1,-3), though one gets from there straight down without meeting the outline.", "quantifier": "every closed outline of lines made with AddSegment, every such point", "why_tests_cant": "Parity argument over outlines with any number of lines.", "anchors": ["src/geom/mcad_outline.cpp: IsInside L280-415", "src/geom/mcad_segment.cpp: checkLines L1156-1355"]}
{"id": "C111", "title": "Operations with a circle keep the outline closed", "statement": "When AddOutline or SubOutline of a circle returns true for a closed course of lines and arcs or for a circle, the error flag is not touched and the result is again a closed course, for which IsContiguous is true, provided no line or arc of the outline is met by the circle in two places other than its ends. Without this it fails: adding the circle of radius 4 about (0,-3) to the disc of radius 5 without what lies below y = -4 returns true, the result is not contiguous, and the upper part of the edge is gone.", "quantifier": "every closed outline, every circle", "why_tests_cant": "Universal over outlines of any length and over which segments are split and deleted.", "anchors": ["src/geom/mcad_outline.cpp: opOutline( circle ) L611-1139"]}
{"id": "C112", "title": "Union and difference of two discs", "statement": "For an outline which is a circle, AddOutline and SubOutline of another circle: when the circles cross in two points which are told apart up to 1e-8, and the two points of the second circle in line with the centres are clear in the sense of C109, the answer is true and the outline becomes two arcs, of which the first covers exactly the points of the first circle not inside the second and the other exactly the points of the second circle not inside the first or, for SubOutline, not outside the first. When the circles are apart nothing is done without error; when they are alike or touch, or the first lies in the second, it is an error; when the second lies in the first it is an error for AddOutline and not for SubOutline, and nothing is done.", "quantifier": "every pair of circles", "why_tests_cant": "Equality of point sets over reals.", "anchors": ["src/geom/mcad_outline.cpp: opOutline( circle ) L611-1139", "src/geom/mcad_segment.cpp: checkCircles L490-545, splitCircle L1939-2023"]}
{"id": "C113", "title": "What operations with a circle leave behind", "statement": "Whatever AddOutline or SubOutline of a circle answers, the bounding box keeps its corners and is marked as not valid, and nothing of the outline computes it again (only GetTrimmedPlane of the board does). An open outline, a null pointer and anything but a circle are refused with an error; a circle which no segment meets changes nothing and is no error; when nothing is done without an error the segments are those from before. As IsInside uses the box from before, the point (12,0) is said to be outside the union of the discs of radius 5 about the origin and about (8,0).", "quantifier": "every outline, every argument", "why_tests_cant": "The stale box only matters for points beyond it.", "anchors": ["src/geom/mcad_outline.cpp: opOutline( circle ) L611-1139, IsInside L280-415, calcBoundingBox L2161-2196"]}
{"id": "C114", "title": "Cylinders", "statement": "IGES_GEOM_CYLINDER::SetParams( centre, start, end ) returns true exactly when the three points have z = 0, neither start nor end is the centre up to 1e-8, and their distances from the centre differ by no more than 1e-8; otherwise the object is empty afterwards. If the distances are equal and start and end are apart, Instantiate makes one to three trimmed surfaces; their upper edges, one after the other, are the arc which goes counterclockwise from start to end at the upper height, and along every bound the curves in parameters and those in space describe the same closed way.", "quantifier": "every centre, start, end, every pair of heights", "why_tests_cant": "Reals; equality of curves at every parameter.", "anchors": ["src/geom/geom_cylinder.cpp: SetParams L114-267, Instantiate L270-1005"]}
{"id": "C115", "title": "Walls over segments", "statement": "For a line, an arc whose ends are exactly on its circle, or a circle, the surfaces which GetSegmentWall makes cover exactly the points above the segment between the two heights. Along each bound the curves in the parameters of the surface lead to the same points as the curves in space, stay within the parameter range of the surface and close.", "quantifier": "every such segment, every pair of heights, both orientations", "why_tests_cant": "Equality of point sets, at all points of curves and surfaces.", "anchors": ["src/geom/iges_geom_pcb.cpp: GetSegmentWall L1000-1091", "src/geom/geom_cylinder.cpp: Instantiate L270-1005", "src/geom/geom_wall.cpp: Instantiate L100-639"]}
{"id": "C116", "title": "The side to which walls face", "statement": "With the top above the bottom, the normal of each surface which GetSegmentWall makes points everywhere to the right of the way along the segment, and with reverse to the left; so walls of an outline which runs counterclockwise face outwards. When the heights are given the other way round, walls over lines face the other side, while walls over arcs and circles do not.", "quantifier": "every segment, all points of its walls", "why_tests_cant": "Derivatives of surfaces at all points.", "anchors": ["src/geom/iges_geom_pcb.cpp: GetSegmentWall L1000-1091", "src/geom/geom_cylinder.cpp: Instantiate L270-1005", "src/geom/mcad_outline.cpp: GetVerticalSurface L189-292"]}
{"id": "C117", "title": "When walls are made", "statement": "Within 10^7 of the origin and heights up to 10^6, with a resolution of at most 1e-8: GetSegmentWall makes a wall over a line exactly when the heights are at least 1e-6 apart; over a circle exactly when they are at least 0.001 apart; over an arc the latter and neither of its ends is, up to the resolution, at a place where the arc crosses the level of its centre (an end exactly there is no crossing). So a board between 1e-6 and 0.001 thick gets straight walls but no curved ones, and a closed outline whose arc starts 1e-9 below the level of its centre gets neither walls nor planes.", "quantifier": "every segment, every pair of heights", "why_tests_cant": "The failing arcs are a set which tests do not hit.", "anchors": ["src/geom/iges_geom_pcb.cpp: GetSegmentWall L1000-1091", "src/geom/geom_cylinder.cpp: Instantiate L270-1005", "src/entities/entity102.cpp: AddSegment, IsClosed L675-720"]}
{"id": "C118", "title": "Curves which stand for a segment", "statement": "The curves which GetCurves makes for a line, an arc whose ends are exactly on its circle, or a circle, go one after the other from its start to its end, in its direction, at the height asked for; those of GetCurveOnPlane, taken to the plane over a square box, do the same, also for the plane which faces down. The transforms used for clockwise arcs are turns (determinant 1) but carry the form number 1, which in IGES stands for a determinant of -1.", "quantifier": "every such segment, every height, every square box", "why_tests_cant": "Equality of curves at every parameter, for all angles.", "anchors": ["src/geom/iges_geom_pcb.cpp: GetCurves L925-951, GetCurveOnPlane L958-996, getCurveArc L1152-1457, copArc L1609-1856"]}
{"id": "C119", "title": "Walls of a board", "statement": "GetVerticalSurface returns true exactly when the outline is closed and not empty and GetSegmentWall succeeds for all its segments, for the drill holes and for the segments of all cutouts; the error flag is set otherwise. Then the surfaces cover exactly what is above the outline, holes and cutouts between the heights; over the outline they face to the right of its direction, over holes and cutouts to the left. After a failure the list of the caller holds the surfaces over the segments before the one which failed.", "quantifier": "every outline with any number of segments, holes and cutouts", "why_tests_cant": "Universal over boards of any size.", "anchors": ["src/geom/mcad_outline.cpp: GetVerticalSurface L189-292"]}
{"id": "C120", "title": "Planes of a board", "statement": "GetTrimmedPlane returns true exactly when the outline is closed and not empty and, for the outline and each cutout and hole, no proper beginning of the curves from GetCurves or from GetCurveOnPlane has its two ends within the resolution of each other; the error flag is set otherwise and no surface is added. Then one surface is added which is level, faces up (or down with reverse), reaches at least up to the outline (up to 1e-8), and whose bounds follow the outline, the cutouts and the holes. The computation of the box is defined for outlines within 10^9 of the origin. As the curves on the plane are scaled to width 1, a board 300 wide with a last edge of 0.4 gets no plane when the resolution is 0.001, which is what a model read from a file without one has; with 1e-8 it does.", "quantifier": "every outline with any number of segments, holes and cutouts", "why_tests_cant": "Universal over boards of any size; the failure depends on size and resolution together.", "anchors": ["src/geom/mcad_outline.cpp: GetTrimmedPlane L297-734, getUntrimmedPlane L738-920, calcBoundingBox L2161-2196"]}
{"id": "C121", "title": "Union of two outlines", "statement": "Let two closed outlines run exactly from segment to segment, without clockwise arcs, and let a point where they meet be at a corner exactly or not near it, and be passed by the second outline once. If AddOutline returns true, the two outlines were cut at the two points where they meet, and the outline is now a closed contiguous course made of the part of the first which starts out of the second and the part of the second which starts out of the first, in order; the second outline is deleted and the error flag is not set. With such outlines, the call always returns. With a clockwise arc it need not: merging the square from (-13,-9) to (-3,1) with the board (-5,0), (-5,-8), (0,-8), (5,-8), (5,0), whose upper edge is an arc around the origin through (0,-5), runs for ever.", "quantifier": "every pair of closed outlines with any number of lines and arcs", "why_tests_cant": "Universal over outlines of any length and all ways in which the points fall on segments and corners.", "anchors": ["src/geom/mcad_outline.cpp: opOutline L1143-1920, AddOutline L1926-1963"]}
{"id": "C122", "title": "Cutting an outline out of another", "statement": "Let two closed outlines run exactly from segment to segment, and let a point where they meet be at a corner exactly or not near it. SubOutline then always returns. If it returns true, the outline is the part of the first which starts out of the second, followed by the part of the second which starts inside the first, reversed, and it is contiguous, unless the latter part goes from the first point to the second and has more than one segment. In this case its segments are put in a wrong order and the outline is not contiguous although true was returned without error. So cutting the square from (-5,-5) to (5,5) out of the one from (0,0) to (10,10) leaves a broken outline, cutting the one from (5,5) to (15,15) out of it does not.", "quantifier": "every pair of closed outlines with any number of lines and arcs", "why_tests_cant": "The failure depends on which crossing is found first and on the number of segments between crossings.", "anchors": ["src/geom/mcad_outline.cpp: opOutline L1143-1920, SubOutline L1966-2006"]}
{"id": "C123", "title": "What merging outlines keeps", "statement": "AddOutline and SubOutline with an outline never change whether the outline is closed, its direction or the stored corners of its bounding box, which they call out of date. They answer true without error, false with an error or false without; the argument is deleted exactly when the answer is true. When one of the outlines is open or the argument is null: false with an error and no segment changes. When no segments meet: false without error and no segment changes. With two circles one of which lies within the other: false and no change, with an error except when a circle inside is cut out.", "quantifier": "every pair of outlines", "why_tests_cant": "Universal over outlines; absence of changes.", "anchors": ["src/geom/mcad_outline.cpp: opOutline L1143-1920"]}
{"id": "C124", "title": "Cutouts and holes", "statement": "AddCutout returns true exactly when the argument was taken over, otherwise the error flag is set and it stays with the caller; a null argument, an open outline, or a segment which is not a circle is refused. With an outline, at most one cutout is added and holes stay. Without overlaps, or when the argument meets neither the outline nor a cutout, it is stored as it is, even when it lies beside the board. When it is cut out of the outline nothing is stored; when it is merged with a cutout, it is not compared with the cutouts after that one, so that cutouts may overlap. AddCutout with a circle always returns.", "quantifier": "every board with any number of cutouts and holes", "why_tests_cant": "Universal over boards; absence of checks.", "anchors": ["src/geom/mcad_outline.cpp: AddCutout L2013-2155"]}
{"id": "C125", "title": "Handles of geometry: every object is destroyed once", "statement": "In a program which makes, destroys, renews, detaches and attaches handles DLL_MCAD_SEGMENT, DLL_MCAD_OUTLINE and DLL_IGES_GEOM_PCB and adds segments, outlines, circles, cutouts and holes to outlines, let no handle be copied, no outline be added to itself, and let Attach and the functions which take raw pointers be given only objects which neither a handle nor an outline owns. Then, whatever the geometry makes the functions answer, no destroyed object or handle is ever used, nothing is destroyed twice, every object belongs to one handle, to one outline, or was detached, and if nothing was detached, all objects are gone when the handles are. Each of the conditions is needed: a copy which outlives its handle, a handle attached to a cutout and destroyed before its board, an outline which is its own cutout, and a pointer of a handle added to an outline lead to a second destruction.", "quantifier": "every such program of any length, every answer of the geometry", "why_tests_cant": "Universal over call sequences; double deletion shows as anything or nothing.", "anchors": ["src/dllapi/dll_mcad_segment.cpp: L38-133", "src/dllapi/dll_mcad_outline.cpp: L39-131, L293-472", "src/dllapi/dll_iges_geom_pcb.cpp: L40-90", "src/geom/mcad_segment.cpp: L60-148", "src/geom/mcad_outline.cpp: L113-209"]}
{"id": "C126", "title": "What handles destroy", "statement": "After a program as in the claim before: destroying a handle, or DelSegment and DelOutline, destroy exactly its object and whatever is in it (the segments, cutouts and holes, and those of the cutouts), and change no other object and no other handle. Detach destroys nothing and leaves the object with its contents to the caller. NewSegment and NewOutline destroy the object the handle had, with all its contents, although the headers say that it is detached.", "quantifier": "every reachable state, every handle with an object", "why_tests_cant": "Universal over states and nesting of cutouts; absence of side effects.", "anchors": ["src/dllapi/dll_mcad_segment.cpp: L50-109", "src/dllapi/dll_mcad_outline.cpp: L51-110", "src/dllapi/dll_iges_geom_pcb.cpp: L55-72", "src/include/api/dll_mcad_outline.h: L93-96"]}
{"id": "C127", "title": "Who owns what was added", "statement": "When AddSegment, AddOutline, SubOutline or AddCutout of an outline handle with another handle returns true, that handle is empty afterwards and its object is either listed by an outline or destroyed; when it returns false, the handle still has its object. With a raw pointer which nobody owns: when true is returned the object is listed by an outline or destroyed, otherwise still nobody's. The outline handle keeps its object. It returns false when either handle has no object.", "quantifier": "every reachable state, every argument, every answer of the geometry", "why_tests_cant": "Universal over states; ownership is not visible in a test.", "anchors": ["src/dllapi/dll_mcad_outline.cpp: L293-472", "src/geom/mcad_outline.cpp: L420-607, L1926-2155"]}
{"id": "C128", "title": "Arrays handed out by handles", "statement": "GetVerticalSurface and GetTrimmedPlane of DLL_IGES_GEOM_PCB append the new surfaces to the array of the caller in a new array, and count them; without new ones they return false and change nothing. GetCurves and GetCurveOnPlane return true and count the new curves but never write them into the array. GetSegmentWall returns false for every valid handle. When the outline of a handle was destroyed by its owner, GetCurveOnPlane and GetSegmentWall use it nevertheless, while the other functions return false. GetSegments, GetCutouts and GetDrillHoles hand out exactly the list of the outline, and false for an empty one. GetIntersections demands a null array and a count of 0 and hands out exactly the points. Split appends the new segments if array and count fit together; with a null array it still adds to the count of the caller, which is then larger than the array; without points it returns true and does nothing.", "quantifier": "every valid handle, every array and count, all results of the geometry", "why_tests_cant": "Elements which are not written look like pointers; universal over lengths.", "anchors": ["src/dllapi/dll_iges_geom_pcb.cpp: L93-349", "src/dllapi/dll_mcad_outline.cpp: L134-221", "src/dllapi/dll_mcad_segment.cpp: L287-441"]}
{"id": "C129", "title": "Overlapping drill holes become one cutout", "statement": "A drill with a diameter from 0.3 to 1e6, within 1e6 of the origin, becomes the circle with its centre and half its diameter. If every two drills are either apart (the centres further from each other than the sum of the radii) or cross properly, mergeDrills puts the drills into groups: two drills are in one bundle exactly if a chain of drills, each overlapping the next, joins them; the drills which overlap no other stay in the list, in their order; a bundle has at least two drills. Two drills which touch within 0.001, are the same within 0.001, or of which one is inside the other raise a flag. Whatever the answers are, no iterator is used after its element was erased, and every drill is in the list or in exactly one bundle; the search is given up only if two drills raise a flag. The drills of a bundle are merged in the order of their gap from the first.", "quantifier": "every list of drills of any length", "why_tests_cant": "Universal over lists; transitive closure with erasure during iteration.", "anchors": ["src/idf/idf2igs.cpp: convertDrills L486-515, mergeDrills L520-666, bundleDrills L670-743"]}
{"id": "C130", "title": "Every drill hole is in the board", "statement": "When MakeBoard makes a board, every drill is in exactly one place: taken by the edge, in a cutout which was added, a hole of its own, in a cutout or hole which AddCutout declined (the answer is ignored), or nowhere. None is nowhere if no two drills raise a flag. Otherwise the drills bundled so far are lost: with two drills which overlap and a third which is listed twice, the board is made with the third alone, no error being reported. MakeBoard uses a destroyed outline exactly if the drills of a bundle cannot be merged one by one in the order of their gaps; so it does for the four drills of diameter 10 at (0,0), 10 at (8,0), 16 at (8,12), 4 at (0,8), every two of which are apart or cross, because the last is added before the one which joins it to the others.", "quantifier": "every list of drills, every board outline and cutouts, every answer of the geometry", "why_tests_cant": "Universal over boards; a hole which is missing or a use after free shows only for particular layouts.", "anchors": ["src/idf/idf2igs.cpp: MakeBoard L254-344, mergeDrills L520-666, bundleDrills L670-743, killCutouts L768-786"]}
{"id": "C131", "title": "The fields of a line of an IDF file", "statement": "FetchIDFLine takes a line, also the last one without a newline; a line whose very first character is # is a comment, of which the # is removed; white space is removed from both ends, and the answer is false exactly if nothing is left and it is no comment. Every line has exactly one reading as fields: in quotes anything without a quote, without quotes anything which has no white space and does not start with a quote, with white space between them (none is needed after a closing quote), possibly with an unclosed quote at the end. Calls of GetIDFString from index 0 give these fields one by one with their quote flags, and then false with the index at the end; an unclosed quote leaves the flag set. CompareToken holds exactly if the string is the keyword in any mixture of cases. A number with decimals is read with its exact value, whatever follows it in the field (-1.50mm is -1.5), unless it is a digit, e or E.", "quantifier": "every line, every keyword in capitals, every number with decimals", "why_tests_cant": "Universal over strings of any length.", "anchors": ["src/idf/idf_helpers.cpp: FetchIDFLine L35-67, GetIDFString L71-124, CompareToken L131-144"]}
{"id": "C132", "title": "Drilled holes are read as they were written", "statement": "A line is read as a hole exactly if its fields are three numbers without quotes, the first not below the least diameter of the unit, and then, in version 3, plating, reference, hole type and owner, in version 2 hole type and reference; further fields are not looked at, keywords may be in quotes and in any case, and in version 3 the unit TNM is refused. A line which starts with .END_DRILLED_HOLES ends the section; a comment, also an empty one, is an error. A section of any number of holes which was written in mm or thou is read back hole for hole, in order: diameters within 0.0005 mm, positions within 0.000005 mm (0.00127 mm in thou; exactly, if they have no more decimals than are written), the same plating and owner, reference and hole type the same, except that a name which is a keyword in any case comes back as that keyword. This needs names without quote, newline and NUL, and a diameter of at least 0.001 mm (0.00254 mm in thou); holes made by a program meet the latter, because smaller ones become 0.3. With a quote in the name the hole comes back with another name, hole type and owner and no error; a hole of 0.001 mm written in thou cannot be read again.", "quantifier": "every list of holes with numbers up to 1e300, every line", "why_tests_cant": "Universal over names, numbers and lists.", "anchors": ["src/idf/idf_common.cpp: IDF_DRILL_DATA constructor L333-388, read L407-653, write L655-740", "src/idf/idf_parser.cpp: readBrdDrills L1633-1652, L2985-3003"]}
{"id": "C133", "title": "Notes are read as they were written", "statement": "A section of any number of notes which was written is read back note for note, in order: the text as it was, also with white space at its ends, position and size within 0.000005 mm, or 0.00127 mm if written in thou; this needs a text without quote and newline. A comment in the section is an error.", "quantifier": "every list of notes with numbers up to 1e300, every text without quote and newline", "why_tests_cant": "Universal over texts, numbers and lists.", "anchors": ["src/idf/idf_common.cpp: readNote L94-239, writeNote L242-263", "src/idf/idf_parser.cpp: readBrdNotes L1657-1670, L3020-3029"]}
{"id": "C134", "title": "Arcs of an IDF outline", "statement": "For two different points and an angle between 0.01 and 359.99 degrees in either direction, IDF_SEGMENT has the two points as its ends and the centre and radius of the one arc which turns by that angle from the first to the second. Up to 0.01 degrees it is the line, from 359.99 to 360.01 the circle about the first point through the second. In the KiCad convention the first point is the centre, the second the start, and the end is off by at most 0.0001 degrees. Put into an MCAD_OUTLINE the arc is travelled as the file says: after each part of the way the start has turned by that part of the angle. SwapEnds makes of it the segment from the second point to the first with the opposite angle; a circle keeps its place. An angle beyond 360 degrees, which nothing refuses, gives another arc: by 450 degrees from (1,0) to (0,1) the centre becomes (1,1).", "quantifier": "all points and angles; for the conversion, points up to 1e7 which are at least 1e-6 apart", "why_tests_cant": "Universal over real coordinates and angles.", "anchors": ["src/idf/idf_common.cpp: IDF_SEGMENT L1034-1164, L844-884, CalcCenterAndRadius, SwapEnds", "src/idf/idf2igs.cpp: convertOln L398-483"]}
{"id": "C135", "title": "An IDF loop becomes an outline", "statement": "A loop of lines and arcs, two or more, which ends where it starts and does not come near its start before becomes a closed outline of exactly these pieces, in order, or all of them travelled the other way round. One which ends elsewhere is accepted too, and the outline is left open: this happens to loops whose end is within 1e-5 of the start, which the IDF reader takes for closed. To a closed outline nothing can be converted: the answer is false and the outline is unchanged.", "quantifier": "every loop of any length within 1e9 of the origin, points at least 1e-6 apart", "why_tests_cant": "Universal over lists of segments.", "anchors": ["src/idf/idf2igs.cpp: convertOln L398-483"]}
{"id": "C136", "title": "Which way round an IDF outline goes", "statement": "Segments which follow each other are all accepted by push. For three or more lines IsCCW is true exactly if the area within the closed polygon is not negative. With arcs it is right whenever the area is larger than what is lost by taking each arc for its two half chords; for two segments with an area other than 0 it is always right. A crescent of large arcs with positive area is reported as clockwise.", "quantifier": "every list of segments of any length", "why_tests_cant": "Universal over lists of segments.", "anchors": ["src/idf/idf_common.cpp: IDF_OUTLINE push, IsCCW L1211-1388", "src/idf/idf_common.h: L470-529"]}
{"id": "C137", "title": "Components are put where the IDF board says", "statement": "On either side, seen from that side, every point of a component is turned counterclockwise by the sum of the two angles about the origin of the component, which is at the sum of position and offset, and is as high above that side of the board as in its model plus the offset. Distances are kept and nothing is mirrored. A loop as in C135 at least 0.001 thick has a body: walls and two planes, all of which look outward; a plane is missing exactly if GetTrimmedPlane fails, and if GetVerticalSurface succeeds the walls are the whole outline from bottom to top. An empty outline, a smaller thickness or a failed conversion gives no body and no error.", "quantifier": "every position, angle, offset and board thickness, every outline", "why_tests_cant": "Universal over reals and outlines.", "anchors": ["src/idf/idf2igs.cpp: MakeComponents L857-957, buildComponent L1116-1183, rotateY, rotateZ, calcTransform L1199-1255", "src/geom/mcad_elements.cpp: L122-131, L209-255, L334-339"]}
{"id": "C138", "title": "OTHER outlines of an IDF board", "statement": "Only the first OTHER outline with loops can have a body: MakeOtherOutlines uses one outline for all, so once it is closed the next conversion fails and the call returns false, which main ignores; all later ones are missing in the file. Of the body made, the plane next to the board looks into the body: on top both planes look up, on the bottom both look down. On top the walls look outward; on the bottom those over lines look inward and those over arcs and circles outward.", "quantifier": "every list of OTHER outlines, every outline, thickness and side", "why_tests_cant": "Universal over lists and outlines.", "anchors": ["src/idf/idf2igs.cpp: MakeOtherOutlines L960-1094, main L171-180"]}
{"id": "C139", "title": "Which outline sections of an IDF file are accepted", "statement": "Up to the line which starts with .END_ a section of lines with a loop number, two coordinates and an angle is accepted exactly if its points are those of loops numbered from 0 without gaps (a section with one loop may use 1), each of them a circle given by centre and point with an angle of 360, or at least three points of which the last is within 1e-5 of the first and none between the second and the last is, the first without an angle; the first loop goes counterclockwise and the others clockwise or are circles, except that the last loop may go either way. The result is the segments between these points. Blank lines are skipped, but a comment counts as a point. In a component a line with PROP ends the loops as they are, so one which is not closed is accepted; elsewhere such a line is refused. What follows a number within a field is put before the next field: 0.5 as a loop number makes an x of 10 into 0.51.", "quantifier": "every section of any length, any units, for any function which tells the winding", "why_tests_cant": "Universal over lists of lines and points.", "anchors": ["src/idf/idf_outlines.cpp: readOutlines L154-655", "src/idf/idf_common.cpp: Matches L844-855, IDF_SEGMENT L1042-1098, IsCircle L1156-1164, L1318-1324"]}
{"id": "C140", "title": "Outlines of an IDF file are read as they were written", "statement": "Loops of circles, or of two and more lines and arcs which follow each other, are written and read again: each segment ends within half of the last digit (5e-6 mm, or 0.00127 mm for thou) and turns within 0.0005 degrees of what it did, the first loop counterclockwise and the others clockwise, turned round if need be. This needs that the loop comes near its first two points only at its ends, angles of at least 0.011 and up to 359.98 degrees, and windings which rounding does not change. A loop in thou whose last segment is 0.001 mm long is written but can not be read.", "quantifier": "every list of loops of any length, coordinates up to 1e300, for any function which tells the winding", "why_tests_cant": "Universal over lists of segments and rational coordinates.", "anchors": ["src/idf/idf_outlines.cpp: writeOutline L694-956, writeOutlines L958-974, readOutlines L154-655"]}
{"id": "C141", "title": "Which components the placement of an IDF board makes", "statement": "Records and holes of a file make a board exactly if records with one reference designator say the same side and the same placement status. Then there is one component for each name which a record or a hole (other than those of the board or panel) has, in the order of the names; its parts are the records with that name in their order, each with the outline listed under its two names joined by an underscore, and the place, height and angle of each part are those of its record; its holes are the ones with that name in their order. A record is two lines: names and designator, then x, y, height (version 3), angle, side and status, with anything after them ignored; it is refused if one of them does not hold, if a comment line comes in place of one, or if the file ends right after the second. The section ends at a first line whose first field is .END_PLACEMENT without quotes. Records without designator get made names NOREFDESn0, NOREFDESn1 and so on, without a check whether the file has them, so parts which have nothing to do with each other become one component or the file is refused. Outlines A_B with C and A with B_C have one key, so a part may get the outline of the other. In files in tens of nanometres the components (unlike the holes) are not converted.", "quantifier": "every list of records and holes, every library of outlines, every two lines, both versions, all units, with substitutes or without", "why_tests_cant": "Universal over lists of events and over text.", "anchors": ["src/idf/idf_parser.cpp: readPlaceData L255-735, addCompDrill L3343-3357, L3594-3645, GetNewRefDes L1384-1392, GetInvalidOutline L3970-4010", "src/idf/idf_common.cpp: GetDrillRefDes L763-784", "src/idf/idf_outlines.cpp: GetUID L3501-3512"]}
{"id": "C142", "title": "Placements of an IDF board are read as they were written", "statement": "The placement section which is written for a board is read again as one record for each part in the order of the names of components, with x and y within half of the last digit (5e-6 mm, or 0.00127 mm for thou as far as positions go), height within 0.0005 mm (0.00127 mm), angle within 0.0005 degrees, side, status and outline as they were. If the outlines are in the library, the names do not look like NOREFDES and no part on the bottom has offsets, the board read has the same components with the same parts in these places. All holes of the board and of its components are written once each. But on the bottom, the offsets in x and the angle of the second part of a component are written with the other sign, so a part right of the first comes back left of it; a designator with a space is cut there, and one which starts with NOREFDES is lost; WriteFile with aUnitMM set writes thou, and millimetres without.", "quantifier": "every board with any number of components and parts, numbers up to 1e300, both units, every list of holes", "why_tests_cant": "Universal over boards and rational numbers.", "anchors": ["src/idf/idf_parser.cpp: writePlaceData L739-836, L2983-3001, L3052-3079, WriteFile L3099-3104, readPlaceData L255-735"]}
{"id": "C143", "title": "Which instances of components idf2igs makes", "statement": "For a board which was read, the walk over the components dereferences NULL exactly if substitutes are off (as idf2igs has them) and some record names an outline which the library does not have. Otherwise there is, for each name, one instance for each of its records whose outline has a body, in their order, labelled with the name, of the outline with the record's key, at the x, y, height and angle of the record and on its side, and there are no others. With substitutes on the outline which stands in for a missing one is a star of ten points, by turns on circles of radius 1.5 and 2.5 mm and 36 degrees apart from 18 degrees on, but starts with a line from its first point to itself, so it never has a body and the part is left out.", "quantifier": "every file of records and holes, every library, any set of outlines with a body", "why_tests_cant": "Universal over lists of records; a missing outline needs an IDF file and a crash.", "anchors": ["src/idf/idf2igs.cpp: MakeComponents L889-957", "src/idf/idf_parser.cpp: readPlaceData L620-735", "src/idf/idf_outlines.cpp: CreateDefaultOutline L3536-3614"]}
{"id": "C144", "title": "Headers of IDF boards and libraries", "statement": "The header of a board file is four lines (three for a library), each the next one which is not blank: .HEADER; the type of the file, a version written 3.0, 3., 3, 2.0, 2. or 2, a source, a date and a number; the name of the board and its unit; .END_HEADER. It is accepted exactly if the first and last lines hold just these words and the fields say so, keywords in any mixture of cases, anything after the fields ignored, only source, date and name in quotes; TNM is a unit only in version 2, the number is what its field starts with, or 1 if that is no number. What is read is what the fields say. A file which starts with a comment is refused. A header which is written (names without quote or newline, number below 2147483647) is read again as version 3 with the given date, the source after the words Created by, the name of the board (BOARD WITH NO NAME if it has none), millimetres or thou, and the number raised by one.", "quantifier": "every file, every layout of its lines, all names, dates and numbers", "why_tests_cant": "Universal over text; every layout of blank lines, spaces and cases.", "anchors": ["src/idf/idf_parser.cpp: readBrdHeader L1684-1896, readLibHeader L2553-2706, writeLibFile L2800-2811, writeBoardFile L2845-2868"]}
{"id": "C145", "title": "Order of the sections of IDF boards", "statement": "In every board file which is accepted the first section is the board outline and there is no other one; nothing follows the placement; a file of version 2 has no notes and one of version 3 is not in tens of nanometres; no two .OTHER_OUTLINE sections have one identifier. But one line between sections which is neither a heading nor a comment makes the reader lose its place: if the lines after it have no quotes and no heading further in than their start, all of them are skipped, so every later section is dropped and the file is accepted without an error.", "quantifier": "every file; every line which is no heading and every list of lines after it, in any state but after the placement", "why_tests_cant": "Universal over files; the loss shows only as missing sections.", "anchors": ["src/idf/idf_parser.cpp: readBrdSection L1900-2318 (idx set once, L1923), readBoardFile L2322-2419"]}
{"id": "C146", "title": "IDF boards which are written are read again, and which are not", "statement": "A board outline, routing or placement outline or keepout, via keepout or placement region which is written is read again with its kind, owner, group, side or layers as they were, the thickness or height within half of the last digit and its loops as in C140. A whole board file with a board outline, any number of such outlines, holes, notes and parts of components is written and read again with exactly these sections in this order and their contents as in C132, C133, C140 and C142, the name of the board kept and its number raised by one. But a file with an .OTHER_OUTLINE section (the newline after the side is missing) or with a placement outline which has no height (written as -1) is written and then refused as a whole. An outline without loops, other than the board's, leaves no trace in the file.", "quantifier": "every board, outlines with loops as in C140, numbers up to 1e300, both units which are written", "why_tests_cant": "Universal over boards and rational numbers; needs files of every kind of section.", "anchors": ["src/idf/idf_outlines.cpp: readData and writeData of BOARD_OUTLINE L1032-1245, OTHER_OUTLINE L1613-1932, ROUTE_OUTLINE L1973-2222, PLACE_OUTLINE L2321-2625, GROUP_OUTLINE L2745-2949", "src/idf/idf_parser.cpp: writeBoardFile L2839-3096, readBoardFile L2322-2419"]}
{"id": "C147", "title": "Outlines in IDF libraries", "statement": "The second line of an .ELECTRICAL or .MECHANICAL section gives geometry, part, unit and height, each in quotes or not, and is accepted exactly if the names are not both empty, the height starts with a number and the unit is MM or THOU in any mixture of cases, or, in version 2, any other word but TNM, which is then taken for TNM: a library of version 2 in TNM is refused at its first outline, and one in a unit which does not exist is read as if in TNM. The properties of an electrical part of version 3 are lines PROP, name, value, with blank lines between them and anything after the value ignored; they are kept by name, and a name which comes twice refuses the file. The section is then accepted exactly if its last line is .END_ELECTRICAL or .END_MECHANICAL and nothing else, with its newline, and the outline holds what the lines say. A comment instead of the second line is refused.", "quantifier": "every file, every layout of its lines, all names, words and numbers, both versions", "why_tests_cant": "Universal over text; every word but three is a unit, and every layout of the lines counts.", "anchors": ["src/idf/idf_outlines.cpp: IDF3_COMP_OUTLINE::readProperties L2977-3094, readData L3114-3377 (L3254)"]}
{"id": "C148", "title": "IDF libraries as a whole", "statement": "A library whose sections are outlines is accepted exactly if every outline whose geometry and part, joined by _, came before is of the same type as the first such one, has as many outlines and, in the first of them, as many segments with ends within 1e-3 mm; it then holds for every key the first outline and nothing of the later ones. Heights, units, angles of arcs and properties are not compared, nor the names beyond the joined key: a part with another height, or with arcs instead of lines, is dropped without an error. A library which is written is read again with exactly the outlines a component refers to, in the order of their keys, their comments, types, names, units and the properties of electrical parts as they were, heights and loops as in C140 and C146, and the header as in C144; outlines without a reference and the properties of mechanical parts are not written.", "quantifier": "every library, any number of outlines; written: names and properties without quote and newline, loops as in C140, numbers up to 1e300", "why_tests_cant": "Universal over files and libraries; the dropped outline shows only as a part of the wrong height.", "anchors": ["src/idf/idf_parser.cpp: MatchCompOutline L63-101, readLibSection L2423-2549, readLibFile L2709-2741, writeLibFile L2795-2836", "src/idf/idf_outlines.cpp: IDF3_COMP_OUTLINE::writeData L3380-3424, writeProperties L3096-3112, GetUID L3501-3512"]}
{"id": "C149", "title": "Lines of the sections of IDF boards", "statement": "For every kind of outline section, version and layout of the lines: the second line is accepted exactly if it has the fields that kind needs, and then means the following. Board: a length, made positive, 1.6 mm if it is zero. Other outline: identifier, length and, in version 3, TOP or BOTTOM; in version 2 the side is TOP whatever follows. Route outline and keepout: a layer out of quotes, INNER and ALL only in version 3. Place outline and keepout: TOP, BOTTOM or BOTH and a height which is not negative; only a place outline may leave the height out. Place region: such a side and a group. Words are taken in any mixture of cases and further fields are ignored. In version 2 route outlines have no such line and mean all layers, place outlines none and mean TOP and height 0. The section then is accepted exactly if its last line is the matching .END_ (the whole line, or for place outlines, place keepouts and regions only its first field, even in quotes) with a newline after it, and holds what the lines say; an owner which is missing or unknown means unowned. A place outline without a height is kept with height -1 mm, which is written as it stands: the file written from it is refused (C146).", "quantifier": "all lines and layouts, eight kinds of sections, both versions, all units", "why_tests_cant": "Universal over text and layouts; the height is lost only when the file has been read, written and read again.", "anchors": ["src/idf/idf_outlines.cpp: readData L1032-1223, L1613-1869, L1973-2184, L2321-2559, L2745-2902", "src/idf/idf_helpers.cpp: ParseOwner L148-169, ParseIDFLayer L172-203"]}
{"id": "C150", "title": "After the placement of an IDF board", "statement": "When the placement has been read the rest of the file is looked at: it is refused exactly if it has a line which is neither blank nor a comment and no comment before that line is empty, and else everything read before is kept. So sections after the placement refuse the file, unless a line with # alone stands before them: then they are ignored without an error, and so is anything else.", "quantifier": "all files which are accepted up to the end of their placement, any number of lines after it, with or without a last newline", "why_tests_cant": "Universal over files; whether a file is refused depends on a line with nothing but a comment sign.", "anchors": ["src/idf/idf_parser.cpp: readBoardFile L2322-2419 (L2379-2404)", "src/idf/idf_helpers.cpp: FetchIDFLine L35-67"]}
{"id": "C151", "title": "References to the outlines of components", "statement": "An outline of a component is written to the library only if its counter of references is not 0. For every sequence of calls which make placements by reading a record or by the constructor without offsets, change their outline or delete them, the counter of each outline is the number of placements which use it; so the library written holds exactly the outlines in use, and each is read again. For every sequence of calls at all the counter is never more than that number, so no outline out of use is written. But it can be less: the constructor with offsets and the copy constructor do not count while the destructor always counts down, so a placement made with offsets leaves its outline out of the library, and one which is made and deleted, or a copy which is deleted, takes away the reference of another placement: an outline with one user is then not written though the board refers to it. Clear of an outline (and so CreateDefaultOutline) sets the counter to 0 whoever uses it.", "quantifier": "all sequences of calls on any number of placements and outlines, all libraries", "why_tests_cant": "Universal over sequences of calls; the outline is lost only when the board has been written.", "anchors": ["src/idf/idf_parser.cpp: IDF3_COMP_OUTLINE_DATA L110-158, SetOutline L236-252, readPlaceData L717-726", "src/idf/idf_outlines.cpp: incrementRef, decrementRef L3515-3533, Clear L3426-3442, writeData L3380-3388"]}
{"id": "C152", "title": "Editing the outlines of a section of an IDF board", "statement": "For every sequence of AddOutline, DelOutline, Clear and SetOwner on a section: AddOutline is accepted exactly if the section has a board, its owner is nobody or the kind of CAD the board belongs to (or it is an outline of a component), and the same pointer is not held yet; the outline goes to the end. NULL is accepted like any other pointer, and DelOutline by pointer never removes it. DelOutline removes just the outline asked for, exactly if it is not the first of several; so the outline of the board is never replaced by a cutout: the first outline stays the first until it is the only one and is removed, or all are cleared. DelOutline by pointer deletes nothing, that by index deletes what it removes. When the section is destroyed each outline accepted and not removed by pointer has been deleted, and none twice, unless the program added one which was deleted before. SetOwner and Clear are accepted for the same owners as AddOutline; Clear leaves a section without an owner, and one which was given to the other kind of CAD can not be taken back. The documentation subjects DelOutline to the rules of ownership; it does not obey them: a program which may neither add to a section nor clear it may remove all its outlines but the first.", "quantifier": "all sequences of calls, all outlines, owners and boards", "why_tests_cant": "Universal over sequences of calls; who owns the memory of an outline, and whether a deletion should have been refused, no test of one call shows.", "anchors": ["src/idf/idf_outlines.cpp: CheckOwnership L79-125, clear L1247-1254, Clear L1256-1266, addOutline L1279-1305, AddOutline L1307-1315, DelOutline L1317-1425, SetOwner L1462-1471, clearOutlines L1478-1491", "src/idf/idf_outlines.h: L204-245"]}
{"id": "C153", "title": "Slots of IDF boards", "statement": "AddSlot refuses a slot exactly if its width or its length is below a micrometre. Otherwise, for every length, orientation and place and every width up to 900 mm, the outline given to the board has four segments, in this order: a straight run at half the width to the right of the axis, half a turn clockwise about one end of the axis, the straight run on the other side, half a turn about the other end. The axis is as long as the length which was asked for, so the slot is longer than that by its width. The angle of the start of a cap is cut off at the ten thousandth part of a degree, so a cap misses the run after it by up to that part of its radius; push takes the run nevertheless, since this is less than a micrometre. Of wider slots push can refuse the run, which AddSlot does not look at: a slot of 8 m at 90.00005 degrees is accepted with one run and one cap only.", "quantifier": "all widths up to 900 mm, lengths, orientations and places, as real numbers", "why_tests_cant": "Universal over real parameters; the order, the direction and the gaps of the segments are not seen in a test of the result.", "anchors": ["src/idf/idf_parser.cpp: AddSlot L3436-3520", "src/idf/idf_common.cpp: IDF_SEGMENT L1052-1098, push L1327-1388"]}
{"id": "C154", "title": "Components which an IDF board holds", "statement": "As long as a program names no component while the board holds it: FindComponent finds exactly the components which the board holds, each by its name; AddComponent is refused exactly if the board holds a component of the same name, and else adds the component; DelComponent of a component which the board holds deletes that component and nothing else if it is placed, unplaced, or reserved for the kind of program which asks, and else is refused without effect; clearing the board deletes each component it holds once, and no other. A component which was never placed can never be deleted by DelComponent. SetRefDes is accepted exactly if the component is not reserved for the other kind of program and the name is neither empty nor PANEL in any case, SetPlacement exactly if the component is not so reserved and the placement is valid; each changes that attribute only. Faults shown: DelComponent deletes whichever component the board holds under the name of the one given, and checks the reservation of the one given only, so an electrical program can delete a component reserved for the mechanical one; a component renamed while the board holds it is found by its old name only and cannot be deleted; if it is added again, the board deletes it twice.", "quantifier": "all sequences of creations, SetRefDes, SetPlacement, AddComponent and DelComponent on any number of components, both kinds of program", "why_tests_cant": "Universal over call sequences; which object a deletion reaches and whether one is deleted twice depends on the whole history and is undefined behaviour when it goes wrong.", "anchors": ["src/idf/idf_parser.cpp: IDF3_COMPONENT L844-857, checkOwnership L884-945, SetRefDes L974-1001, SetPlacement L1295-1316, checkComponentOwnership L1396-1438, AddComponent L3668-3692, DelComponent L3695-3714, FindComponent L3757-3766, Clear L4059-4072"]}
