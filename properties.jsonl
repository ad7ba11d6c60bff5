{"id": "C01", "title": "Path data draws what SVG says", "statement": "For path data built from the commands M L H V Q T C S Z (upper and lower case, any number of coordinate sets per command), the path that Parse stores for a <path> element is exactly the sequence of moves, lines, curves and closes that the SVG rules for those commands prescribe: relative coordinates are taken from the current point, H and V keep the other coordinate, T and S reflect the previous control point when the previous command was of the same family and use the current point otherwise, extra pairs after M are lines, and Z returns to the start of the subpath.", "quantifier": "all command sequences, all coordinate values, all use offsets, all legal ways of writing the numbers and separators", "why_tests_cant": "The interaction of command, previous command, case and number of sets is unbounded; tests fix a few icons.", "anchors": ["parse_path.go:compilePath", "parse_path.go:addSeg", "parse_path.go:pointsToAbs", "parse_path.go:reflectControlQuad", "parse_path.go:reflectControlCube"]}
{"id": "C02", "title": "Number lists are read whatever their separators", "statement": "A list of SVG numbers (optional minus, digits, fraction, lower-case negative exponent) written with any white space and commas between them, or with no separator where a minus sign or a second decimal point starts the next number, is read as exactly the values of those numbers, in order, and nothing else.", "quantifier": "all lists of numerals and all legal separator strings between them", "why_tests_cant": "The tokenizer is a hand-written state machine over bytes; its corner cases are combinations of adjacent tokens.", "anchors": ["parse_path.go:getPoints", "parse_path.go:readFloat", "units.go:parseBasicFloat"]}
{"id": "C03", "title": "A wrong number of coordinates is an error, after the good prefix", "statement": "If a path command is followed by a number of coordinates that is not a positive multiple of what the command takes (or Z by any coordinate), Parse reports a parameter mismatch error, and the path drawn so far is exactly that of the commands before it.", "quantifier": "all path data with a well-formed prefix followed by a badly counted command", "why_tests_cant": "Needs every prefix and every count; a test shows one.", "anchors": ["parse_path.go:hasSetsOrMore", "parse_path.go:addSeg"]}
{"id": "C04", "title": "Drawing a path does not depend on what was parsed before", "statement": "The path, the error and the warnings that come from a path data string depend only on the string, the current use offset and the error mode, not on any path, shape or attribute parsed earlier in the document.", "quantifier": "all path data strings and all pairs of parser states with the same offset and mode", "why_tests_cant": "The parser reuses one mutable cursor for the whole document; leaks show only for particular histories.", "anchors": ["parse_path.go:pathCursor", "parse_path.go:init", "parse_path.go:compilePath"]}
{"id": "C05", "title": "No path data string makes the parser panic or hang", "statement": "For every byte string used as the d attribute of a path, in every parser state, path compilation returns normally or with an error: no index out of range, no endless loop. The same holds for every points, viewBox and transform argument list.", "quantifier": "all byte strings, including invalid UTF-8, and all parser states", "why_tests_cant": "Fuzzing samples strings; absence of panics needs all of them.", "anchors": ["parse_path.go:compilePath", "parse_path.go:addSeg", "parse_path.go:getPoints", "shapes.go:addArc", "parse.go:parseTransform"]}
{"id": "C06", "title": "Error modes differ only in how unsupported input is reported", "statement": "If Parse succeeds in Strict mode, then in Ignore and Warn mode it returns the same Svg and no error, and Warn mode logs nothing. Warn mode and Ignore mode always return the same Svg and the same error; they differ only in the log.", "quantifier": "all token streams and all fuels", "why_tests_cant": "A relation between two runs over every document.", "anchors": ["parse_path.go:ErrorMode", "parse.go:handleError", "parse.go:readStartElement", "parse_path.go:addSeg", "svg.go:Parse"]}
{"id": "C07", "title": "Elliptical arcs end where they should", "statement": "An A or a command makes the current point exactly the given end point, and the last curve drawn for it ends exactly there.", "quantifier": "all radii, rotations, flags and end points, all current points", "why_tests_cant": "Endpoint exactness must survive every rounding.", "anchors": ["parse_path.go:addArcFromA", "shapes.go:addArc"]}
{"id": "C08", "title": "Arc geometry lies on the right ellipse", "statement": "With exact arithmetic, for positive radii and distinct end points, the centre computed for an arc puts both end points on one ellipse with the given rotation and radius ratio; the radii are those given whenever such an ellipse exists, and every intermediate point of the drawn arc lies on that ellipse.", "quantifier": "all positive radii, all rotations, all pairs of distinct end points, all flags", "why_tests_cant": "A geometric identity over the reals, not a finite table.", "anchors": ["shapes.go:findEllipseCenter", "shapes.go:ellipsePointAt", "shapes.go:addArc"]}
{"id": "C09", "title": "Lengths with units", "statement": "A number followed by px, cm, mm, pt, in, Q or pc, or by nothing, denotes that number of the unit in pixels (96 px per inch); a number followed by % denotes that percentage of the width, height or normalised diagonal of the current view box, according to the attribute. Surrounding white space does not matter.", "quantifier": "all numerals, all units, all view boxes", "why_tests_cant": "A suffix rule over strings; tests cover a handful.", "anchors": ["units.go:findUnit", "units.go:parseUnit", "units.go:resolveUnit"]}
{"id": "C10", "title": "Hexadecimal colours", "statement": "fill and stroke values #rrggbb denote exactly the three bytes written, in upper or lower case, and #rgb the same with each digit doubled; the alpha is opaque.", "quantifier": "all hexadecimal digit strings of length 3 and 6", "why_tests_cant": "2^24 colours times the case variants.", "anchors": ["patterns.go:parseSVGColor", "patterns.go:parseSVGColorNum"]}
{"id": "C11", "title": "Functional and named colours", "statement": "rgb(r,g,b) with decimal integers from 0 to 255 denotes those bytes, larger integers are clamped to 255, percentages from 0 to 100 denote the corresponding fraction of 255; none turns painting off; a colour name in any case denotes its table entry; anything else is an error.", "quantifier": "all integers and all percentages, all spacings, all names", "why_tests_cant": "Clamping and case rules range over unbounded input.", "anchors": ["patterns.go:parseColorValue", "patterns.go:parseSVGColor"]}
{"id": "C12", "title": "Colour attributes never crash the parser", "statement": "No value of fill, stroke or stop-color makes Parse panic.", "quantifier": "all strings", "why_tests_cant": "Panics hide in short or malformed values.", "anchors": ["patterns.go:parseSVGColor", "patterns.go:parseColorValue", "patterns.go:parseSVGColorNum"]}
{"id": "C13", "title": "Styles are scoped to their element", "statement": "In a document without use elements, after an element has been closed the inherited style is exactly what it was before the element was opened; a style attribute affects only its element and its descendants.", "quantifier": "all well-nested documents without use, all attributes, all depths", "why_tests_cant": "Stack discipline over every tree shape.", "anchors": ["svg.go:Parse", "parse.go:pushStyle"]}
{"id": "C14", "title": "A document is drawn as the tree says", "statement": "For a document made of svg, g and the basic shapes, SvgPaths holds one entry per shape with non-empty geometry, in document order; each entry's style is obtained by applying the attributes of its ancestors, outermost first, and then its own, to the default style, and its geometry depends only on its own attributes and the view box.", "quantifier": "all trees of these elements", "why_tests_cant": "Unbounded nesting and order.", "anchors": ["svg.go:Parse", "parse.go:readStartElement", "parse.go:pushStyle", "svg_elements.go:drawFuncs"]}
{"id": "C15", "title": "Each style attribute changes only its own property", "statement": "Applying a style attribute leaves every part of the style it does not name unchanged, and sets the one it names to the documented value; attributes the library does not know change nothing.", "quantifier": "all attribute names, values, parser states and prior styles", "why_tests_cant": "Frame conditions are about what does not change.", "anchors": ["parse.go:readStyleAttr"]}
{"id": "C16", "title": "Opacity accumulates multiplicatively", "statement": "The fill opacity of a path is 1 multiplied by every opacity and fill-opacity on its ancestors and itself, from the outside in; the stroke opacity likewise with opacity and stroke-opacity.", "quantifier": "all chains of elements", "why_tests_cant": "Arbitrary depth.", "anchors": ["parse.go:readStyleAttr", "types.go:DefaultStyle"]}
{"id": "C17", "title": "Matrix algebra", "statement": "With exact arithmetic: Identity is neutral for Mult; Transform of the inverse undoes Transform whenever the determinant is not zero; a.Mult(b) transforms a point as a after b; TransformVector maps the difference of two points to the difference of their images.", "quantifier": "all matrices and points", "why_tests_cant": "Algebraic laws over the reals.", "anchors": ["matrix.go:Mult", "matrix.go:Invert", "matrix.go:Transform", "matrix.go:TransformVector", "matrix.go:Identity"]}
{"id": "C18", "title": "transform attributes", "statement": "A transform attribute on an element maps points by its functions applied right to left and then by the transform of the parent: translate, scale, rotate (about the origin or a point), skewX, skewY and matrix.", "quantifier": "all function lists, arguments and parent transforms", "why_tests_cant": "Composition over arbitrary lists and ancestors.", "anchors": ["parse.go:parseTransform", "parse.go:readTransformAttr", "matrix.go"]}
{"id": "C19", "title": "Parse results and errors", "statement": "Parse returns nil exactly when the input ends without a start element; otherwise it returns an Svg; an error of the XML decoder is returned to the caller together with what was parsed before it. ParseFile returns nil and the error of the operating system for a file that cannot be opened, and otherwise accepts a file exactly as Parse does in the same mode.", "quantifier": "all token streams", "why_tests_cant": "Every truncation point of every document.", "anchors": ["svg.go:Parse", "svg.go:ParseFile"]}
{"id": "C20", "title": "View box", "statement": "After <svg>, the view box is the viewBox attribute when given; a zero or absent width (height) of it is replaced by the width (height) attribute; a viewBox that does not hold four numbers is an error. Width and Height keep the attribute text.", "quantifier": "all attribute lists and orders", "why_tests_cant": "Order and presence combinations.", "anchors": ["svg_elements.go:svgF"]}
{"id": "C21", "title": "Lines, polylines and polygons", "statement": "A line element draws one move and one line between its end points; a polyline draws a move and one line per further point, in order; a polygon draws the same and closes; an odd number of coordinates is an error.", "quantifier": "all coordinates and point lists, all offsets", "why_tests_cant": "Lists of any length.", "anchors": ["svg_elements.go:lineF", "svg_elements.go:polylineF", "svg_elements.go:polygonF"]}
{"id": "C22", "title": "Rectangles", "statement": "A rect without rounded corners draws the closed rectangle with corners (x,y), (x+w,y), (x+w,y+h), (x,y+h); the outline of a rounded rect stays inside that rectangle.", "quantifier": "all positions, sizes, radii", "why_tests_cant": "Geometry over all reals.", "anchors": ["svg_elements.go:rectF", "shapes.go:addRect", "shapes.go:addRoundRect"]}
{"id": "C23", "title": "Circles and ellipses", "statement": "A circle or ellipse starts and ends at (cx+rx, cy), is closed, and with exact arithmetic every curve end point lies on the ellipse with the given centre and radii.", "quantifier": "all centres and radii", "why_tests_cant": "Geometry over all reals.", "anchors": ["svg_elements.go:circleF", "parse_path.go:ellipseAt", "shapes.go:addArc"]}
{"id": "C24", "title": "Shapes without extent draw nothing", "statement": "A rect with zero width or height, and a circle or ellipse with a zero radius, add no path and are no error.", "quantifier": "all other attributes", "why_tests_cant": "All attribute combinations.", "anchors": ["svg_elements.go:rectF", "svg_elements.go:circleF"]}
{"id": "C25", "title": "Titles and descriptions", "statement": "Titles holds, in document order, the character data of each title element outside definitions; Descriptions likewise for desc.", "quantifier": "all documents, all ways the decoder splits character data", "why_tests_cant": "Chunking and order.", "anchors": ["svg.go:Parse", "svg_elements.go:titleF", "svg_elements.go:descF"]}
{"id": "C26", "title": "Definitions are not drawn", "statement": "Nothing inside <defs> adds to SvgPaths, SvgMasks, Titles or Descriptions until it is referenced.", "quantifier": "all defs contents", "why_tests_cant": "Every nesting inside defs.", "anchors": ["parse.go:readStartElement", "svg_elements.go:defsF"]}
{"id": "C27", "title": "use draws the definition at its offset", "statement": "A use element draws the shapes of the definition it refers to, also those in groups and in further uses, each moved by the use element's x and y and with its own style, and leaves the inherited style and the offset as they were.", "quantifier": "all definitions and offsets", "why_tests_cant": "Every definition and history.", "anchors": ["svg_elements.go:useF"]}
{"id": "C28", "title": "Parsing terminates", "statement": "Parse terminates on every document.", "quantifier": "all documents, including ones whose definitions refer to each other", "why_tests_cant": "Non-termination is invisible to finite tests.", "anchors": ["svg_elements.go:useF", "shapes.go:addArc"]}
{"id": "C29", "title": "Parse does not panic", "statement": "No input makes Parse panic.", "quantifier": "all token streams a well-formedness checking decoder can produce", "why_tests_cant": "Absence of panics over all documents.", "anchors": ["svg.go:Parse", "svg_elements.go:useF", "patterns.go:parseSVGColor"]}
{"id": "C30", "title": "Gradients in styles are complete", "statement": "Every gradient found in the style of a parsed path (or mask path) has a direction, and every one of its stops has a colour.", "quantifier": "all documents, successful or not", "why_tests_cant": "Invariant of every reachable parser state.", "anchors": ["patterns.go:localizeGradIfStopClrNil", "patterns.go:readGradURL", "svg_elements.go:linearGradientF", "svg_elements.go:radialGradientF"]}
{"id": "C31", "title": "Gradient attributes and defaults", "statement": "A linear gradient runs from (x1,y1) to (x2,y2) with defaults 0%,0%,100%,0; a radial one has cx,cy,r with default 50% and focal point defaulting to the centre; coordinates are fractions of the bounding box or of the view box according to gradientUnits; stops are kept in document order with their offset (number or percentage), colour and opacity.", "quantifier": "all attribute lists", "why_tests_cant": "Combinations of presence and order.", "anchors": ["svg_elements.go:linearGradientF", "svg_elements.go:radialGradientF", "svg_elements.go:stopF", "units.go:readFraction"]}
{"id": "C32", "title": "Masks", "statement": "SvgMasks maps each mask id to the paths drawn inside that mask element, in order; those paths are not in SvgPaths. The Masks list of a path holds the masks named on its ancestors and itself, outermost first.", "quantifier": "all documents with masks outside definitions", "why_tests_cant": "Nesting and sharing of slices.", "anchors": ["svg_elements.go:maskF", "parse.go:readStartElement", "parse.go:readStyleAttr", "svg.go:Parse"]}
{"id": "C33", "title": "Path text output", "statement": "ToSVGPath gives path data that, parsed again, draws the same path.", "quantifier": "all paths", "why_tests_cant": "Round trip over all paths.", "anchors": ["path.go:ToSVGPath", "path.go:String"]}
{"id": "C34", "title": "Rendering options", "statement": "Later options override earlier ones; without Opacity the opacity is 1; without Target the image is drawn in its own coordinates; Target(x,y,w,h) maps the view box onto that rectangle.", "quantifier": "all option lists and view boxes", "why_tests_cant": "All rectangles and view boxes.", "anchors": ["renderer/options.go:Options", "renderer/options.go:Target"]}
{"id": "C35", "title": "Renderers draw every path once, in order, with its own paint", "statement": "Each renderer draws the paths of the Svg in order; for each path it issues one fill if the path has a fill paint and then one stroke if it has a stroke paint, with the geometry transformed by the path's transform and the target, the path's opacity multiplied by the global opacity, and the path's fill rule, width, joins and caps; nothing of one path affects another.", "quantifier": "all Svg values and option lists", "why_tests_cant": "All sequences of paths.", "anchors": ["renderer/rasterx/draw.go:drawTransformed", "renderer/draw2d/draw.go:drawTransformed", "renderer/gg/draw.go:drawTransformed"]}
{"id": "C36", "title": "Drawing a parsed document does not panic or hang", "statement": "Draw on an Svg returned by Parse terminates without panic, for every renderer.", "quantifier": "all parsed documents and options", "why_tests_cant": "Invariant linking parser and renderer.", "anchors": ["renderer/gg/draw.go:getMask", "renderer/gg/draw.go:toGradient"]}
{"id": "C37", "title": "Dashes and stroke settings", "statement": "stroke-dasharray sets the dash list to the lengths written, none sets it to no dashes, and stroke-width, stroke-dashoffset, stroke-miterlimit, stroke-linecap and stroke-linejoin set the corresponding stroke property.", "quantifier": "all value lists", "why_tests_cant": "Lists of any length.", "anchors": ["parse.go:readStyleAttr", "parse.go:splitOnCommaOrSpace"]}
{"id": "C38", "title": "Fixed-point conversion", "statement": "Coordinates are stored in 1/64 pixel: for a coordinate of magnitude below 2^25 the stored value differs from the exact one by less than 1/64 pixel, towards zero.", "quantifier": "all coordinates in range", "why_tests_cant": "All reals in a range.", "anchors": ["parse.go:fToFixed", "shapes.go:toFixedP"]}
{"id": "C39", "title": "Parsed documents share nothing", "statement": "The style of a stored path is not changed by elements parsed later: what SvgPaths and SvgMasks hold for an element is final once the element is closed.", "quantifier": "all documents and all continuations", "why_tests_cant": "Aliasing between slices shows only for particular histories.", "anchors": ["parse.go:readStyleAttr", "parse.go:readStartElement", "types.go:DefaultStyle"]}
{"id": "C40", "title": "Gradient references are resolved when used", "statement": "fill=\"url(#id)\" gives the gradient with that id as defined before the reference, with stops without a colour taking the colour inherited at the reference; a reference to an id not defined before it paints black.", "quantifier": "all documents", "why_tests_cant": "Order of definitions and references.", "anchors": ["patterns.go:readGradURL", "patterns.go:GetColor"]}
{"id": "C41", "title": "Stroke widths follow the transform", "statement": "The renderers multiply the stroke width of a path by the factor by which its transform multiplies lengths.", "quantifier": "all transforms that scale uniformly", "why_tests_cant": "All angles and factors.", "anchors": ["matrix.go:LineWidthScale", "renderer/rasterx/draw.go:drawTransformed"]}
{"id": "C42", "title": "A shape's outline depends only on the shape", "statement": "In a parsed document every shape element (line, rect, circle, ellipse, polyline or polygon with points, path of any data) is stored with exactly the outline that the element alone draws in a fresh parser with the same view box and use offset, whatever elements, definitions, gradients and masks come before it.", "quantifier": "All documents built from groups, shapes, titles, descriptions, gradients, definitions, uses and masks; all attribute texts for which the shape draws without error; all arithmetics.", "why_tests_cant": "The cursor keeps numbers, control points and the last command of earlier elements; which of them leak into a later element depends on unbounded history.", "anchors": ["svg_elements.go:rectF", "svg_elements.go:circleF", "svg_elements.go:polylineF", "svg_elements.go:pathF", "parse_path.go:init", "parse.go:readStartElement"]}
{"id": "C43", "title": "Undeclared style properties have their initial values", "statement": "In a document in which no element declares a given style property, every stored path, in the body, drawn by a use or inside a mask, has SVG's initial value of that property.", "quantifier": "All documents, all style properties.", "why_tests_cant": "Absence of a declaration in trees of any size; leaks from one element to the next show only for particular histories.", "anchors": ["types.go:DefaultStyle", "svg.go:Parse", "parse.go:pushStyle"]}
{"id": "C44", "title": "Unknown attributes and properties are ignored", "statement": "Leaving out attributes whose name neither an element nor the style reader knows, and style declarations of unknown properties, gives the same parse result: the same document, error, panic and log, in every error mode.", "quantifier": "all token streams, all attribute values, all error modes", "why_tests_cant": "Unknown names are infinitely many and may stand on any element, also where an error or a panic follows.", "anchors": ["parse.go:readStyleAttr", "parse.go:pushStyle", "svg_elements.go", "patterns.go:readGradAttr"]}
{"id": "C45", "title": "Mask attributes change only mask lists", "statement": "Leaving out mask attributes and mask declarations gives the same parse result but for the mask lists of the paths: outlines, every other style property, masks, titles, sizes, errors, panics and the log are the same.", "quantifier": "all token streams, all sets of mask attributes left out", "why_tests_cant": "Independence of two parts of the state over all histories.", "anchors": ["parse.go:readStyleAttr", "svg_elements.go:maskF", "parse.go:readStartElement"]}
{"id": "C46", "title": "Comments and stray text do not matter", "statement": "Comments, directives and processing instructions and the cutting of text into pieces never change the parse result; text outside titles and descriptions does not either.", "quantifier": "all token streams for comments and pieces; all documents for text", "why_tests_cant": "Text and comments may stand anywhere, in particular inside definitions and gradients and after references.", "anchors": ["svg.go:Parse"]}
{"id": "C47", "title": "The order of attributes does not matter", "statement": "Writing the attributes of the elements in another order gives the same document: the same paths, styles, masks, titles and sizes.", "quantifier": "all token streams that parse without error, all permutations of the attributes of all elements, all error modes", "why_tests_cant": "The number of orders grows factorially, and the readers share mutable state (the list of numbers, the style, the pen).", "anchors": ["svg_elements.go", "parse.go:pushStyle", "parse.go:readStyleAttr", "patterns.go:readGradAttr"]}
{"id": "C48", "title": "A drawing is not much larger than its document", "statement": "The number of path operations of a parsed document, masks included, is at most a constant times the number of characters, tags and attributes of the document.", "quantifier": "all token streams, all error modes and outcomes", "why_tests_cant": "Growth is a statement about arbitrarily large documents; a few sample sizes cannot tell linear from quadratic or exponential growth.", "anchors": ["shapes.go:addArc", "shapes.go:addRoundRect", "parse_path.go:addSeg", "svg_elements.go:useF", "svg_elements.go:polylineF", "parse.go:readStartElement"]}
{"id": "C49", "title": "A longer document keeps what a shorter one gives", "statement": "Everything in the document parsed from a token stream is in the document parsed from that stream followed by any other tokens: paths, titles and descriptions in the same order with new ones behind them, mask, gradient and definition ids, log lines. After an error, a panic or an endless reference nothing that follows matters.", "quantifier": "all token streams, all continuations, all error modes and all outcomes of both parses", "why_tests_cant": "It compares every document with every one of its continuations; tests compare a handful of complete documents with expected values.", "anchors": ["svg.go:Parse", "parse.go:readStartElement", "svg_elements.go:useF", "svg_elements.go:titleF", "svg_elements.go:descF"]}
{"id": "C50", "title": "The renderers agree", "statement": "rasterx, draw2d and gg show the same picture of a document: the same outlines in the same order, filled or stroked in the same colours, opacities, rules, widths, caps and joins.", "quantifier": "all documents, all rendering options, all states of the contexts drawn on", "why_tests_cant": "Three back ends are compared on every document; tests compare single images of single back ends.", "anchors": ["renderer/rasterx/draw.go:Draw", "renderer/draw2d/draw.go:Draw", "renderer/gg/draw.go:Draw"]}
{"id": "C51", "title": "The names of ids do not matter", "statement": "Two documents that differ only by a consistent renaming of ids (id attributes, href=\"#x\", and url(#x) in fill, stroke and mask, written as attributes or as style declarations) parse to the same result but for the names of the masks: same outlines, styles, gradients on paths, expansions of use, masks found under their new names, same error, panic and log. The three renderers make the same calls for both. Names written in url(#x) are ASCII without white space, ':' and ')'.", "quantifier": "all documents and token streams, all injective renamings that keep the empty name, all error modes, all fuels, all environments, all render options", "why_tests_cant": "a renaming is an arbitrary function on strings; a test compares two documents, while a key collision, a prefix match or a lookup in the wrong table appears only for particular names", "anchors": ["parse.go:readStartElement", "parse.go:parseSelector", "parse.go:readStyleAttr", "patterns.go:readGradURL", "svg_elements.go:useF", "svg_elements.go:maskF", "svg_elements.go:linearGradientF", "svg_elements.go:radialGradientF", "renderer/gg/draw.go:drawTransformed", "renderer/gg/draw.go:getMask"]}
{"id": "C52", "title": "Attributes of a group act as if written on each element in it", "statement": "When a document parses without error, then the document in which some groups are left out and their attributes are written in front of the attributes of the elements inside parses without error to the same content in every field: outlines, styles, mask lists, masks, titles, sizes. This holds for nested groups, at any position outside definitions and gradients; in particular a group without attributes may be left out.", "quantifier": "all documents, all positions, all sets of groups whose attributes are style attributes or style declarations other than transform and mask (or have unknown names), around any elements other than svg, defs, use and gradients, all error modes, all fuels, all environments", "why_tests_cant": "inheritance through the style stack meets every combination of attributes on every level of nesting; a test compares a few documents, while a style that leaks, is read from the wrong level or is reset by a sibling shows up only for particular nestings", "anchors": ["parse.go:pushStyle", "parse.go:readStyleAttr", "svg.go:Parse", "svg_elements.go:gF"]}
{"id": "C53", "title": "A shape can be replaced, deleted or swapped on its own", "statement": "Replacing shapes at a position of a document by other shapes replaces their paths and changes nothing else: whatever follows in the document, the parser returns the same error or none, all paths before and after, titles, descriptions, masks, definitions and gradients stay the same, and each element adds at most one path. Deleting shapes deletes just their paths, and swapping neighbours swaps just their paths.", "quantifier": "all documents, all positions outside definitions, gradients, masks, titles and descriptions, all replacements by shapes, groups of shapes, text and unknown elements that declare no mask and whose polylines and polygons have a points attribute, all following tokens whose polylines and polygons have one, all ways the token stream ends, all error modes, all fuels, all environments", "why_tests_cant": "all elements share one cursor whose numbers, control points, pen position, style stack and slices survive from one element to the next; a test sees only the pairs of elements it contains, while a leak shows up for one particular pair of neighbours", "anchors": ["svg.go:Parse", "parse.go:readStartElement", "parse.go:pushStyle", "parse_path.go:compilePath", "svg_elements.go:polylineF", "svg_elements.go:useF"]}
{"id": "C54", "title": "A larger target gives a larger picture", "statement": "Take a parsed document and two lists of render options that differ only in the rectangle of the last Target: the second is k times as wide and as high, with the same corner and k >= 1. Then each of the three renderers makes the same calls, in the same order, with every coordinate k times as large (up to rounding of both to 1/64, that is, within (k+1)/64) and with every line width k times as large; everything else (colours, rules, caps, joins, masks) stays the same.", "quantifier": "all documents, all pairs of option lists, all real k >= 1, exact arithmetic, drawings that stay below the largest coordinate 2^25", "why_tests_cant": "Tests compare images of one size; the relation between two sizes for every document and every factor cannot be sampled.", "anchors": ["renderer/options.go:Target", "renderer/rasterx/draw.go:drawTransformed", "renderer/draw2d/draw.go:drawTransformed", "renderer/gg/draw.go:drawTransformed", "matrix.go:LineWidthScale"]}
{"id": "C55", "title": "In float64 the renderers draw what exact arithmetic draws, within 1/64 of a pixel", "statement": "Take a parsed document and options whose numbers are finite and of usual size (scale factors up to 2^10, offsets, widths and target coordinates up to 2^17, opacities between 0 and 1) and whose drawing stays below the largest coordinate 2^25. Then each of the three renderers makes, with float64 arithmetic, the same calls in the same order as with exact real arithmetic on the same document; coordinates differ by at most 1/64 of a pixel, line widths by at most 1/1024 (rasterx, which takes them in 1/64: by one unit), opacities by at most 2^-50 and the 8 bit alpha of a colour by at most 1, and everything else (rules, caps, joins, dashes, red, green and blue, gradients' geometry, masks) is equal.", "quantifier": "all documents, option lists and path extent results within the stated sizes; all fuels of the mask recursion of gg", "why_tests_cant": "Rounding errors of matrix products and of truncation to 26.6 depend on every bit of every coefficient; tests sample a few matrices and compare images with a tolerance.", "anchors": ["renderer/options.go:Target", "matrix.go:Mult", "matrix.go:TFixed", "matrix.go:LineWidthScale", "renderer/rasterx/draw.go:drawTransformed", "renderer/draw2d/draw.go:drawTransformed", "renderer/gg/draw.go:drawTransformed"]}
{"id": "C56", "title": "Shorthands of path data draw the same as what they are short for", "statement": "Relative commands, H, V, S, T and further argument sets after one letter are shorthands. For path data of M L H V Q T C S Z, the parser draws the same operations, and ends at the same point, as for its longhand, in which every argument set has its own letter and only absolute M, L, Q, C and Z occur, with relative points added to the current point and control points of S and T mirrored. So two texts with the same longhand draw the same.", "quantifier": "all path data strings of these commands, all their legal spellings, all parser states, every arithmetic with commutative addition including float64", "why_tests_cant": "Each shorthand has its own branch in addSeg with its own state (last key, control point); pairs of equivalent texts of any length and mixture cannot be enumerated.", "anchors": ["parse_path.go:addSeg", "parse_path.go:reflectControlQuad", "parse_path.go:reflectControlCube"]}
{"id": "C57", "title": "Path data read and drawn in float64 stays within 1/64 of its exact meaning", "statement": "Every decimal numeral of path data, however long, whose written exponent is below 10000 is read as the float64 nearest to the number it stands for; the condition is needed, since longer exponents are cut short (a numeral that means 1 can be read as 0). Path data of M L H V Q T C S Z whose exact coordinates stay within 2^17 is drawn as the same sequence of operations as its exact meaning, and with fewer than 8192 argument sets every point is at most 1/64 away from the exact point (in general at most (1 + k\u00b2/2^26)/64 for k argument sets), although every relative command and every mirrored control point rounds again.", "quantifier": "all path data strings of these commands with up to 2^20 argument sets, all legal spellings of all numbers, all parser states with offsets up to 2^17", "why_tests_cant": "Rounding errors accumulate along relative commands and double along mirrored control points; the worst text is unknown and tests compare only short paths with exact coordinates.", "anchors": ["parse_path.go:compilePath", "parse_path.go:addSeg", "parse_path.go:getPoints", "parse_path.go:reflectControlQuad", "parse_path.go:reflectControlCube"]}
{"id": "C58", "title": "Elements that mean the same can be written either way", "statement": "If elements of a document are written in another way, the parser returns the same document: the same style declarations as presentation attributes or in a style attribute, in any mixture; path data with the same longhand; a line, polyline, polygon or square-cornered rectangle as a path with the same points, or the reverse; a circle as an ellipse. This holds anywhere outside defs, in documents without defs, and also inside defs if a path with data stays a path with data. It fails inside a definition when another shape is written as path data, because path data makes a used group forget what it has drawn.", "quantifier": "all token streams that parse without error, all error modes, any number of respelled elements at any depth, all numbers and spellings of them; rectangles in exact real arithmetic", "why_tests_cant": "a test compares a few hand-written pairs of files; the claim is about every place in every document and every state of the parser, and needs that a shape draws the same from every state", "anchors": ["svg_elements.go:drawFuncs", "svg_elements.go:lineF", "svg_elements.go:polylineF", "svg_elements.go:polygonF", "svg_elements.go:pathF", "svg_elements.go:circleF", "svg_elements.go:useF", "parse.go:readStartElement", "parse.go:pushStyle", "svg.go:Parse"]}
{"id": "C59", "title": "Shape elements in float64 stay within 1/64 of their exact meaning", "statement": "A line, polyline, polygon, path, circle, ellipse or (square-cornered) rect element, whose lengths are decimal numerals in any unit or percentages of the view box, is drawn as exactly the operations it stands for in exact arithmetic, and every stored coordinate is at most 1/64 away from the exact coordinate cut to multiples of 1/64, wherever it is drawn (offset of the use included). Documents of such elements, with groups, definitions, uses, masks and gradients, parse, and every stored outline is made of such outlines in order. A rect whose width or height is exactly 0 draws nothing, and one whose sizes are at least 2^-16 always draws its four corners.", "quantifier": "all attribute lists with numerals up to 2^17 and lengths up to 2^16, all view boxes and offsets up to 2^17, all parser states, all documents of such elements", "why_tests_cant": "The rounding of the decimal reader, the unit factor, the percentage of the view box, the sums with the offset and the truncation to 1/64 combine differently for every number; a test can only sample them, and a rounding that crosses a grid line or makes a small size zero is rare.", "anchors": ["units.go:parseUnit", "svg_elements.go:rectF", "svg_elements.go:lineF", "svg_elements.go:polylineF", "svg_elements.go:polygonF", "svg_elements.go:pathF", "svg.go:Parse"]}
{"id": "C60", "title": "A document without transforms drawn into its own view box is drawn point for point", "statement": "Every coordinate of every path stored by Parse, masks included, is a 32-bit fixed point number. If no element of the document declares a transform, every stored path has the identity matrix, through groups, definitions, uses and masks. Such a document, drawn in float64 into a target equal to its (nonempty) view box, is drawn without any rounding: rasterx is given exactly the stored operations for the fill and again for the stroke, draw2d and gg exactly the stored points divided by 64, in order, the masks gg draws are drawn point for point from the paths of a mask of the document, and every stroke has its stored width.", "quantifier": "all token streams, all error modes, all float64 oracles, all render options whose last target is the view box", "why_tests_cant": "One wrong float operation (a scale computed as 0.9999999, an offset added before instead of after scaling) moves points by 1/64 only for some coordinates; and a transform leaking from one of the many places a style is copied shows only in documents that combine these.", "anchors": ["renderer/options.go:Target", "matrix.go:TFixed", "matrix.go:Mult", "parse.go:pushStyle", "renderer/rasterx/draw.go:Draw", "renderer/draw2d/draw.go:Draw", "renderer/gg/draw.go:Draw", "svg.go:Parse"]}
{"id": "C61", "title": "A document with a mistake is not accepted", "statement": "Parse returns an error (or fails otherwise), in every error mode and whatever comes before and after, for a document with an element that is drawn and has a length or coordinate that is no number with an optional unit, a viewBox without four numbers, an odd number of points, path data with a wrong number of coordinates, a wrong gradientTransform, an empty mask id, a use without a reference or with one to an id no earlier definition has, or a stop with a wrong colour, opacity or offset; and for any element, drawn or not, with a style declaration, in an attribute or in a style attribute, whose value is no number, dash list, colour, transform list or mask reference. In strict mode also for elements and keywords that are not supported. Not reported are mistakes in the attributes of elements of a definition that is never used, and offsets such as 5%%.", "quantifier": "all token streams around the element, all attributes beside the wrong one, all wrong values of the stated forms, all error modes", "why_tests_cant": "Each test feeds one wrong value to one attribute; an error swallowed in one of the dozens of reading places, or only after certain elements (in a gradient, after a use), leaves all of them green.", "anchors": ["svg.go:Parse", "parse.go:readStartElement", "parse.go:readStyleAttr", "parse.go:parseTransform", "parse.go:parseSelector", "parse.go:handleError", "units.go:parseUnit", "patterns.go:parseSVGColor", "svg_elements.go:useF", "svg_elements.go:maskF", "svg_elements.go:svgF", "svg_elements.go:stopF", "parse_path.go:compilePath"]}
{"id": "C62", "title": "From the text to the page: points land where exact arithmetic puts them", "statement": "Take a document of lines, polylines, polygons, paths, circles, ellipses and square-cornered rects with groups, definitions, uses, masks and gradients, with decimal numerals in any unit, and draw it into a rectangle. Then rasterx, draw2d and gg get, figure by figure and in order, exactly the operations of the figure's exact outline (rasterx once to fill and once to stroke), and every point handed over lies within (k + 2)/64 pixels of the place exact arithmetic gives the exact point of the document, where k is the size a unit of the document has on the page. The same holds for the figures of masks, which gg draws with the transform of the masked figure. Without a transform and with the rectangle at the origin that place is the one the rectangle gives the view box.", "quantifier": "all such documents with coordinates up to 2^16 and places up to 2^24 pixels, all rectangles that scale by at most 2^10, all float64 transforms with entries up to 2^10 and translations up to 2^17, all option lists", "why_tests_cant": "The error of a point is the sum of the errors of the decimal reader, of units and offsets, of two truncations to 1/64 and of the matrix arithmetic, for every number in the document; tests compare a few pictures and tolerate differences.", "anchors": ["svg.go:Parse", "units.go:parseUnit", "parse_path.go:compilePath", "renderer/options.go:Target", "matrix.go:Mult", "renderer/rasterx/draw.go:Draw", "renderer/draw2d/draw.go:Draw", "renderer/gg/draw.go:Draw"]}
{"id": "C63", "title": "Circles and ellipses drawn in float64 are the circles and ellipses they stand for", "statement": "A circle or ellipse element, with decimal numerals in any unit, percentages of the view box and any offset of a use element, is drawn as one closed outline of 17 cubic curves whose points are all within 1/64 of the exact ones. Every point this outline runs through is within 1/16 of the ellipse with that centre and these radii, and every point of the ellipse is within 1/16 of a point of the outline. With a radius of 0 nothing is drawn. The same holds for the stored outlines of every document of shapes.", "quantifier": "all circle and ellipse elements with lengths up to 2^16 and radii 0 or at least 2^-16, all view boxes and offsets up to 2^17, all parser states with an empty path, all documents of such elements and the shapes of C59; sine and cosine up to 8 and tangent up to 1 within 2^-40 of the truth", "why_tests_cant": "A wrong handle length, angle step or number of pieces moves the curve between its end points only; tests compare control points with recorded ones, or a few pixels of small circles.", "anchors": ["svg_elements.go:circleF", "parse_path.go:ellipseAt", "shapes.go:addArc", "shapes.go:ellipsePrime", "shapes.go:ellipsePointAt", "units.go:parseUnit"]}
{"id": "C64", "title": "A circle of the document is the circle on the page", "statement": "Take a document of lines, polylines, polygons, paths, circles, ellipses and square-cornered rects as in C62 and draw it into a rectangle. For every figure that is a circle or an ellipse, the outline that rasterx gets to fill and to stroke, and the one draw2d and gg get, runs along the image of the ellipse under the figure's transform and the rectangle, and nowhere else: every point of the drawn curves is within (k + 2)/16 pixels of the image and every point of the image is within that distance of the drawn curves, k being the size of a unit of the document on the page. Without a transform and with the rectangle at the origin the image is the ellipse around the place of its centre, with both radii scaled like the view box.", "quantifier": "all such documents with coordinates up to 2^16 and places up to 2^24 pixels, radii of at least 2^-16, all rectangles that scale by at most 2^10, all float64 transforms with entries up to 2^10 and translations up to 2^17, all option lists; trigonometric functions within 2^-40 of the truth", "why_tests_cant": "The curve between the control points is not what tests look at, and the errors of parsing, of 17 steps of trigonometry, of the transform and of two truncations add up differently for every circle.", "anchors": ["svg.go:Parse", "svg_elements.go:circleF", "parse_path.go:ellipseAt", "shapes.go:addArc", "renderer/options.go:Target", "renderer/rasterx/draw.go:Draw", "renderer/draw2d/draw.go:Draw", "renderer/gg/draw.go:Draw"]}
{"id": "C65", "title": "Transformed figures are drawn where SVG puts them, rounding included", "statement": "The float64 matrix that a transform attribute stores differs in every entry from the one exact arithmetic gives for the same text by at most n 2^-37 g, where n counts the functions (of the element and of its ancestors) and g bounds the entries. So take a document drawn from the origin with the same scale in both directions: a figure whose transform consists of translations and scalings, then at most one rotate(a), skewX, skewY or matrix, under parents without a transform, is where SVG puts it. Every point that rasterx, draw2d and gg get for it is within three 64ths of a pixel, and the size of 1/64 of the figure on the page, of the place of the exact point.", "quantifier": "all transform texts with fewer than 2^30 functions, numbers up to 2^17, rotations up to 450 and slants up to 45 degrees, all parents; all documents as in C62 whose figures satisfy scale * n * g <= 2^12; trigonometric functions within 2^-40 of the truth", "why_tests_cant": "Tests compare pictures of a few transforms with the eye. The rounding errors of a chain of matrix products grow with every function, and no finite number of chains bounds them.", "anchors": ["parse.go:parseTransform", "parse.go:readTransformAttr", "matrix.go:Mult", "matrix.go:Rotate", "matrix.go:Scale", "matrix.go:Translate", "matrix.go:SkewX", "matrix.go:SkewY", "matrix.go:TFixed", "renderer/options.go:Target"]}
{"id": "C66", "title": "A transformed circle or ellipse is drawn as the curve SVG makes of it", "statement": "Take a document drawn from the origin with the same scale in both directions. A circle or ellipse whose transform consists of translations and scalings, then at most one rotate(a), skewX, skewY or matrix, under parents without a transform: what rasterx, draw2d and gg get for it runs along the exact image of the exact ellipse, and nowhere else, up to a sixteenth of three pixels and the size of one unit of the figure on the page. If the functions are translations, scalings by one factor and rotations, that image of a circle is a circle around the image of its centre, with the radius times the factors and the scale of the page.", "quantifier": "all documents as in C65, all circles and ellipses with radii from 2^-16 whose coordinates are at most 2^16, all transform texts as in C65; trigonometric functions within 2^-40 of the truth", "why_tests_cant": "Tests compare pictures of a few transformed circles with the eye. Seventeen curves, each rounded three times, must stay together for every centre, radius, angle and scale.", "anchors": ["svg_elements.go:circleF", "shapes.go:addArc", "parse.go:parseTransform", "parse.go:readTransformAttr", "matrix.go:Mult", "matrix.go:Rotate", "matrix.go:Scale", "matrix.go:TFixed", "renderer/options.go:Target"]}
{"id": "C67", "title": "What is drawn of a figure is the figure", "statement": "Take the set of points of a figure that its text means in exact arithmetic, with no grid: straight lines, quadratic and cubic curves, closing lines, circles and ellipses, of one element or of all that a use refers to. In a document drawn into a rectangle, the outline that rasterx gets to fill and to stroke has a point near the image of every point of that set, and no other points, up to a sixteenth of two pixels and the size of a unit of the figure on the page. If the figure has a transform of translations and scalings, then at most one rotate(a), skewX, skewY or matrix, and the page is drawn from the origin with the same scale in both directions, then the image is where SVG puts the set. The same holds for draw2d and gg, closing lines apart.", "quantifier": "all documents as in C62, with lines, polylines, polygons, rectangles without rounded corners, circles, ellipses and path data of all commands but arcs that begins with M; all rectangles and rendering options; trigonometric functions within 2^-40 of the truth", "why_tests_cant": "A test looks at a few pixels of a few pictures. Here every point of every curve is accounted for, from the text of its numbers to the page, in both directions: nothing is missing and nothing is added.", "anchors": ["svg.go:Parse", "svg_elements.go:lineF", "svg_elements.go:rectF", "svg_elements.go:circleF", "svg_elements.go:pathF", "parse_path.go:compilePath", "shapes.go:addArc", "matrix.go:TFixed", "renderer/options.go:Target", "renderer/rasterx/draw.go:Draw", "renderer/draw2d/draw.go:Draw", "renderer/gg/draw.go:Draw"]}
{"id": "C68", "title": "Rounded rectangles run along the outline SVG gives them, rounding included", "statement": "Take a rect element whose radii, after SVG's defaults for a missing rx or ry and after clamping to half of the sides, are the same radius r of at least 1/8 in both directions. The path drawn for it in float64 follows the rectangle with rounded corners, that is the set of points at distance r from the rectangle made smaller by r on each side: every point of the path is within r/700 + 3/32 of a point of this set, and every point of this set is within that of the path. A document of such rectangles and the elements of C59 is parsed, and every outline stored follows its elements this way.", "quantifier": "all rect elements with lengths in any unit up to 2^16, view boxes up to 2^17, offsets up to 2^16; all documents of these and the elements of C59; trigonometric functions and atan2 within 2^-40 of the truth", "why_tests_cant": "The corners are put together from arcs between points on the grid, with angles from atan2, an even or odd number of segments, and a cubic for each. Whether a corner turns the right way, is complete and joins the sides depends on rounding that differs for every rectangle; a test sees a few of them.", "anchors": ["svg_elements.go:rectF", "shapes.go:addRoundRect", "shapes.go:addArc", "shapes.go:roundGap", "matrix.go:matrixAdder", "matrix.go:TFixed"]}
{"id": "C69", "title": "Exactly which texts are lists of numbers", "statement": "A list of numbers in a viewBox, in points, in a path command or in the arguments of a transform function is any text in UTF-8. The words that have to be numbers are found character by character: digits, dots, the letter e and a minus sign after an e belong to a number, another minus sign begins the next one, a second dot begins the next one, every other character, of one byte or more, separates. If each word is a number, the values read are exactly those of the words, in order. If one word is not, the list is rejected with an error, and a document with this list is not accepted, in any mode.", "quantifier": "all lists of Unicode scalar values in which no character outside ASCII is a numeral; all documents, at any place in them; every number reader", "why_tests_cant": "The tokenizer works with byte offsets of decoded characters, and slices the text at them. An offset that is wrong by one after a character of two or more bytes, or a word that is skipped when it is no number, shows only in texts that nobody writes into a test: the space of separators is all of Unicode.", "anchors": ["parse_path.go:getPoints", "parse_path.go:readFloat", "parse_path.go:compilePath", "svg_elements.go:svgF", "svg_elements.go:polylineF", "parse.go:parseTransform"]}
{"id": "C70", "title": "Arcs in float64 are the arcs of SVG up to rounding", "statement": "An elliptical arc in path data, computed in binary64, is the arc SVG appendix F.6 defines, up to rounding. The ellipse has the given rotation and the given radii, scaled up only if they do not reach the end point and then by the least factor, up to a millionth. It passes both end points within 1/1024. The arc turns in the direction of the sweep flag and is the longer or the shorter way as the large-arc flag says. What is drawn are cubic curves spanning at most Pi/7 each, whose points are those of that ellipse within one unit of the grid of 1/64, and the last of which ends exactly at the grid point of the end point, which becomes the current point. As sets of points: the curves run along that part of the ellipse, all along it and nowhere else, up to 1/32 of a unit and one 800000th of the radii.", "quantifier": "all coordinates up to 4096 with end points at least 1/16 apart in one of them, radii from 1/16 to 4096 with a ratio up to 16, rotations up to 512 degrees, all flags; every sin, cos, tan and atan2 within 2^-44 of the truth; every legal spelling of the path data, all documents", "why_tests_cant": "The center is found by a difference of squares under a square root, its quotient with the chord, and three uses of atan2. Near a half turn, at radii that only just reach, or where an angle passes from -Pi to Pi, a rounding error could choose the wrong arc, and the set of such arcs is thin: tests with round numbers do not meet it.", "anchors": ["parse_path.go:addArcFromA", "shapes.go:addArc", "shapes.go:findEllipseCenter", "shapes.go:ellipsePrime", "shapes.go:ellipsePointAt"]}
{"id": "C71", "title": "Exactly which texts are path data", "statement": "Path data is any text in UTF-8. A letter other than e begins a command, and the text up to the next such letter gives its numbers. The text is accepted exactly when, for each command, every word of its text is a number and their count is one or more complete sets for that letter, none for Z; a letter that is no command is accepted except in strict mode. Otherwise there is an error. What the text draws is what its commands draw by the pen semantics of path data. A document with a path element whose data is not right is not accepted.", "quantifier": "all lists of Unicode scalar values in which no character outside ASCII is a letter or numeral; all documents, at any place in them; all modes; every number reader", "why_tests_cant": "The parser checks each command in a different place, with its own way of counting. A command that takes a short list, a surplus number that is dropped, or an empty command that is skipped shows only for that letter and that count, and there are infinitely many counts, spellings and positions in the text.", "anchors": ["parse_path.go:compilePath", "parse_path.go:addSeg", "parse_path.go:getPoints", "svg_elements.go:pathF", "parse.go:readStartElement"]}
{"id": "C72", "title": "Exactly which texts are transforms", "statement": "A transform is a list of functions, separated by white space and commas as SVG and the comment in parseTransform say: a name in any case, and in brackets a text whose words are the numbers that the function takes. Such a text is accepted, with the transform of the parent followed by these functions from the last to the first; any other text is an error, and a document with it, in an attribute or in a style, is not accepted, in any mode.", "quantifier": "all texts in ASCII, all parsers and all documents with them, all modes, every number reader", "why_tests_cant": "The text is cut at closing brackets and then at opening ones, and each function counts its numbers itself. Which malformed texts slip through (a missing bracket, two of them, an empty argument, a comma, a number too many) is a question about all texts, not about those in a test.", "anchors": ["parse.go:parseTransform", "parse.go:readTransformAttr", "parse.go:readStyleAttr", "parse_path.go:getPoints"]}
{"id": "C73", "title": "A document is accepted exactly when its elements are", "statement": "What the parser says of an element does not depend on what stands around it. A document without definitions, references and gradients is accepted exactly when each of its elements is accepted as a document of its own, with the lines logged for them in order; otherwise the error is that of the first element refused by itself. With definitions and gradients the same is true of the branches: each element with its ancestors and nothing else.", "quantifier": "all documents, all nestings and all numbers of elements and attributes, all error modes; for branches, documents without <use> outside <defs>, without <defs> in <defs> and without gradients in gradients", "why_tests_cant": "The parser carries a large state from element to element: styles, the path under construction, points, the view box, gradients, masks, titles. That none of it changes what is accepted is a statement about all pairs of states, and a test only sees the few that its documents lead to.", "anchors": ["svg.go:Parse", "parse.go:readStartElement", "parse.go:pushStyle", "svg_elements.go:drawFuncs", "parse_path.go:compilePath"]}
{"id": "C74", "title": "Exactly which documents are accepted", "statement": "A document is accepted exactly when each of its elements is right for the place where it stands: its name is known (or the mode is not strict), its lengths are numbers with an optional unit, its path data, points, viewBox, transforms, colours, dashes, references, keywords and gradient stops are of the forms spelled out, and so are the declarations in its attributes and its style. Of an element that <defs> keeps for later only the declarations count. In particular exactly these texts are lengths, colours, references, offsets and declarations.", "quantifier": "all documents with attributes in ASCII (texts may be anything) without <use> outside <defs>, without <defs> in <defs> and without gradients in gradients; all nestings, numbers and lengths of elements and attributes, all error modes", "why_tests_cant": "The set of accepted documents is infinite and so is its complement; a test can only show that some documents are in one or the other. What is right is stated about the text, with no reference to the order in which the parser looks at it.", "anchors": ["svg.go:Parse", "parse.go:readStartElement", "parse.go:readStyleAttr", "svg_elements.go:drawFuncs", "patterns.go:parseSVGColor", "units.go:parseUnit", "units.go:readFraction", "styles.go:appendStyleAttrs"]}
{"id": "C75", "title": "Acceptance is decided by the text alone", "statement": "Which documents are accepted depends on the arithmetic only through which texts are numbers: with Go's float64 a document is accepted exactly when it is in exact arithmetic, and two platforms that differ in sin, cos, tan, atan2 or in conversions to integers accept the same documents. What strict mode accepts every mode accepts, and ignoring errors accepts exactly what warning of them does.", "quantifier": "the documents of C74, all pairs of arithmetics, platforms and error modes, all trigonometric functions and integer conversions", "why_tests_cant": "A test runs on one platform with one arithmetic, and cannot compare with exact numbers at all.", "anchors": ["svg.go:Parse", "parse.go:readStartElement", "parse_path.go:addSeg", "parse.go:parseTransform", "units.go:parseUnit"]}
{"id": "C76", "title": "Exactly which documents make the parser panic", "statement": "Parse panics on a document exactly when the first element that is not right for the place where it stands (in the sense of C74) has, as the first wrong one of its declarations, a fill or stroke whose colour is cut short; or is a stop in a gradient, has right declarations, and has such a stop-color as the first wrong one of its attributes and style parts. A colour is cut short when it is empty, has fewer than three characters after #, or is rgb() of three values of which the first that is no integer is empty. It returns an error for exactly the other documents of which not every element is right, and it always ends.", "quantifier": "all documents with attributes in ASCII (texts may be anything) without <use> outside <defs>, without <defs> in <defs> and without gradients in gradients; all nestings, numbers and lengths of elements and attributes, all error modes", "why_tests_cant": "Whether a document panics depends on the order of all that is wrong with it, in an infinite set of documents. A fuzzer finds some panics; it cannot show that there are no others.", "anchors": ["svg.go:Parse", "patterns.go:parseSVGColor", "patterns.go:parseSVGColorNum", "parse.go:pushStyle", "parse.go:readStyleAttr", "svg_elements.go:stopF", "styles.go:appendStyleAttrs"]}
{"id": "C77", "title": "What Parse makes of files that are cut off or malformed", "statement": "Let a file hand out the beginning of the tokens of some document and then end, in good order or with an error of the XML decoder. Parse reports whatever error the decoder reports exactly when every element that began so far is right for the place where it stands. It panics exactly when the first that is not right is wrong as in C76, and otherwise returns an error together with what it has read. Once an element is not right, nothing that follows matters: neither the remaining tokens nor how the file ends.", "quantifier": "all documents as in C74 and C76, all places to cut them off (within any element or text, at any depth), all errors of the decoder, all continuations, all error modes", "why_tests_cant": "There are as many beginnings as tokens in each of infinitely many documents; tests with broken files try a few, and cannot show that the rest of a file has no effect.", "anchors": ["svg.go:Parse", "parse.go:readStartElement", "parse.go:pushStyle", "patterns.go:parseSVGColor"]}
{"id": "C78", "title": "Pieces of accepted documents are accepted, and so is what they are put together to", "statement": "An accepted document stays accepted when elements are dropped, with or without what they contain (with it, when they open definitions or a gradient), when texts and comments are dropped or added, and when neighbours are put into a group without attributes, anywhere and any number of times. Two pieces one after the other are accepted exactly when each is; they make Parse panic exactly when the first does, or the first is accepted and the second does. A group is accepted exactly when the empty group with its attributes and its contents are.", "quantifier": "all documents as in C74, all such edits at any place and depth, all error modes", "why_tests_cant": "The edits are unlimited in number and place, and the parser keeps state between elements (style stack, definitions, gradients, the open path, the last numbers read), so that no number of samples shows that acceptance does not depend on neighbours.", "anchors": ["svg.go:Parse", "parse.go:readStartElement", "parse.go:pushStyle"]}
