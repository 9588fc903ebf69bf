{"id": "C01", "title": "DecodeConfig is total and crash free", "statement": "For every byte string, DecodeConfig stops and either returns a Config with the number of bytes it consumed or returns an error; it never panics.", "quantifier": "all byte strings (any length, any content), all three kinds of reader (plain, seekable, discarding)", "why_tests_cant": "A test feeds finitely many files; the claim is about every possible byte string including hostile lengths.", "anchors": ["psd.go:DecodeConfig", "imageres.go:readImageResource", "util.go:readPascalString"]}
{"id": "C02", "title": "DecodeConfig accepts only headers within the documented limits", "statement": "Whenever DecodeConfig succeeds, the returned Config has Version 1 or 2, 1..56 channels, a rectangle anchored at (0,0) whose width and height are in 1..30000 (version 1) or 1..300000 (version 2), and depth 1, 8, 16 or 32; and every 26-byte header that satisfies these limits is accepted by the header checks with exactly those field values.", "quantifier": "all byte strings", "why_tests_cant": "Boundary cases of seven header fields multiply to far more combinations than can be enumerated.", "anchors": ["psd.go:DecodeConfig"]}
{"id": "C03", "title": "Header, colour mode data and image resources round trip", "statement": "For every valid header, colour mode data block and list of image resources (id, name, data), decoding the concatenation of their standard encodings yields a Config with exactly these values, in which looking up a resource id gives the last resource written with that id, and the reported byte count equals the length of the encoding whatever follows it.", "quantifier": "all valid headers, all colour mode data below 2^32 bytes, all finite lists of resources with names of at most 255 bytes and data below 2^32 bytes, any trailing bytes", "why_tests_cant": "Ranges over unbounded lists with arbitrary contents and parities of name and data lengths.", "anchors": ["psd.go:DecodeConfig", "imageres.go:readImageResource", "util.go:readPascalString", "util.go:adjustAlign2"]}
{"id": "C04", "title": "The image resource section is consumed exactly", "statement": "For every image resource section made of well formed blocks, parsing consumes exactly the declared section length plus its 4 length bytes, although the loop counts those 4 bytes against the declared length.", "quantifier": "all finite lists of well formed resource blocks", "why_tests_cant": "The loop condition is off by four; that it never matters depends on every possible combination of block sizes.", "anchors": ["imageres.go:readImageResource"]}
{"id": "C05", "title": "PackBits lines decode to what they encode", "statement": "For every list of PackBits lines (each any sequence of literal runs, repeat runs and no-op bytes) whose total output fits into the destination, decoding writes exactly the concatenated expansion to the front of the destination, leaves the rest of the destination untouched, and reports no error.", "quantifier": "all lists of lines, all run sequences, all destination sizes", "why_tests_cant": "Any number of runs in any order; a test can only try some encodings of some rows.", "anchors": ["compress_other.go:decodePackBitsPerLine"]}
{"id": "C06", "title": "PackBits decoding is memory safe on hostile input", "statement": "For every compressed buffer, every list of line lengths whose sum is at most the buffer length, and every destination, PackBits decoding terminates without panic, keeps the destination length, and fails with the broken-data error exactly when some run does not fit in its line or in the remaining destination.", "quantifier": "all byte buffers, all line length lists, all destinations", "why_tests_cant": "Hostile inputs are unbounded in number; safety has to hold for each of them.", "anchors": ["compress_other.go:decodePackBitsPerLine", "compress_other.go:decodePackBits"]}
{"id": "C07", "title": "Multi-core RLE decoding equals single-core decoding for full rows", "statement": "If every compressed line expands to exactly the number of bytes per line handed to the decoder as its width (which is what rect.Dx() is for 8 bit data), then splitting the lines over any number of workers gives the same destination and no error, as one worker does.", "quantifier": "all images, all GOMAXPROCS values, all schedules of the workers", "why_tests_cant": "The number of CPUs and the scheduling of goroutines are not controlled by a test.", "anchors": ["compress_other.go:decodePackBits"]}
{"id": "C08", "title": "RLE decoding does not depend on the number of CPUs", "statement": "Decoding an RLE compressed image gives the same result for every GOMAXPROCS value, for every bit depth.", "quantifier": "all images of depth 1, 8, 16 and 32, all GOMAXPROCS values", "why_tests_cant": "Needs comparison between machines with different CPU counts for every depth.", "anchors": ["compress_other.go:decodePackBits", "compress.go:CompressionMethod.Decode"]}
{"id": "C09", "title": "ZIP prediction is inverted exactly for 16 and 32 bit data", "statement": "For every image of depth 16 or 32 and every width, undoing prediction on the row-wise differences (modulo 2^16 or 2^32) of any big endian samples returns the original samples.", "quantifier": "all widths >= 1, all numbers of rows, all sample values", "why_tests_cant": "All sample values and all widths including carries; wrap around at each sample.", "anchors": ["compress.go:decodeDelta"]}
{"id": "C10", "title": "ZIP prediction is inverted at every depth the decoder accepts", "statement": "For each depth accepted by DecodeConfig, data stored with ZIP-with-prediction decodes to the original samples.", "quantifier": "all depths 1, 8, 16, 32 and all rows", "why_tests_cant": "The repository has no sample of 8 bit prediction data.", "anchors": ["compress.go:decodeDelta", "compress.go:CompressionMethod.Decode"]}
{"id": "C11", "title": "Layer records build exactly the folder tree they encode", "statement": "For every forest of folders and layers, building the tree from its bottom-to-top record list (divider, content, folder record) returns exactly that forest: same shape, same order, every layer once, open/closed state kept.", "quantifier": "all forests of any depth and width", "why_tests_cant": "Unbounded nesting.", "anchors": ["layer.go:buildTree", "layer.go:readSectionDividerSetting"]}
{"id": "C12", "title": "Unbalanced folder records", "statement": "Building the tree fails exactly when some prefix of the record list closes more folders than it has opened; on success every folder ever closed contains exactly the records between its divider and itself; records before a divider that is never closed are lost without an error.", "quantifier": "all lists of layer records", "why_tests_cant": "All unbalanced shapes, of unbounded length.", "anchors": ["layer.go:buildTree"]}
{"id": "C13", "title": "No layer is silently dropped", "statement": "Whenever decoding succeeds, every non-divider layer record of the file is present in the returned tree exactly once.", "quantifier": "all record lists on which tree building reports success", "why_tests_cant": "Needs all malformed nestings.", "anchors": ["layer.go:buildTree"]}
{"id": "C14", "title": "Additional layer information round trips", "statement": "For every list of additional information blocks (key, data) with any padding that does not contain the byte '8' between them, parsing returns a map in which each key has the data last written, and consumes exactly the declared number of bytes; in PSB files the long length keys use 8 byte lengths.", "quantifier": "all finite lists of blocks, all paddings free of '8', PSD and PSB", "why_tests_cant": "Unbounded lists and paddings.", "anchors": ["layer.go:readAdditionalLayerInfo", "psd.go:AdditionalInfoKey.LenSize"]}
{"id": "C15", "title": "Layer records round trip", "statement": "For every list of layers (rectangle, channels, blend mode, opacity, clipping, flags, mask, blending ranges, name, additional info) the layer section encoding decodes to layers with exactly these attributes in the same order, and the byte count equals the section length.", "quantifier": "all lists of layers with encodable attributes", "why_tests_cant": "Unbounded lists with arbitrary attribute values.", "anchors": ["layer.go:readLayerInfo", "layer.go:readLayerExtraData", "layer.go:readLayerMaskAndAdjustmentLayerData"]}
{"id": "C16", "title": "Unicode layer names", "statement": "For every sequence of Unicode scalar values, a layer whose 'luni' block holds its UTF-16 encoding gets a Name that is the UTF-8 encoding of the same sequence; without a 'luni' block Name is the Pascal string.", "quantifier": "all strings of scalar values", "why_tests_cant": "Surrogate pairs and all code points.", "anchors": ["util.go:readUnicodeString", "layer.go:readLayerExtraData"]}
{"id": "C17", "title": "The layer section is consumed to the byte", "statement": "Whenever reading the layer and mask section succeeds on a non-seekable reader, exactly the declared section length plus the length field was consumed and the reported count is that number.", "quantifier": "all byte strings, PSD and PSB, all options", "why_tests_cant": "All byte strings.", "anchors": ["layer.go:readLayerAndMaskInfo"]}
{"id": "C18", "title": "Reported byte counts are the real consumption", "statement": "Whenever Decode succeeds on a non-seekable reader, the returned count is the number of bytes taken from the reader.", "quantifier": "all byte strings, all options", "why_tests_cant": "All byte strings.", "anchors": ["psd.go:Decode", "psd.go:DecodeConfig"]}
{"id": "C19", "title": "Decoding does not depend on how the reader chunks its data", "statement": "For every way a reader can split the same bytes into non-empty reads, decoding a file whose alignment padding is free of the byte '8' gives the same result as decoding it from one buffer.", "quantifier": "all byte strings and all ways to split them", "why_tests_cant": "A test reader uses one chunking (bytes.Reader or os.File).", "anchors": ["util.go:adjustAlign2", "util.go:adjustAlign4", "psd.go:Decode"]}
{"id": "C20", "title": "Decoding never moves a seekable reader backwards", "statement": "Decode only moves forward in the input and gives the same result for seekable and non-seekable readers.", "quantifier": "all byte strings, all kinds of reader", "why_tests_cant": "Needs hostile length fields.", "anchors": ["util.go:discard", "layer.go:readLayerAndMaskInfo"]}
{"id": "C21", "title": "Skipping layer images changes nothing but the images", "statement": "If Decode succeeds with images and the channel data ends within the layer info section, then Decode with SkipLayerImage succeeds with the same configuration, the same layer tree with all attributes, and no picker or channel data.", "quantifier": "all byte strings", "why_tests_cant": "All byte strings.", "anchors": ["layer.go:readLayerInfo", "psd.go:Decode"]}
{"id": "C22", "title": "The layer callback is called once per layer in order", "statement": "During a successful decode with images, LayerImageLoaded is called exactly once for each layer record of a layer section, with indices 0,1,...,n-1 in order and total n, and never with SkipLayerImage.", "quantifier": "all byte strings, all options", "why_tests_cant": "All byte strings.", "anchors": ["layer.go:readLayerInfo"]}
{"id": "C23", "title": "SeqIDs identify layers", "statement": "All layers of a decoded file have different SeqIDs.", "quantifier": "all byte strings accepted by Decode", "why_tests_cant": "Needs files with several layer info blocks.", "anchors": ["layer.go:readLayerInfo", "layer.go:readAdditionalLayerInfo"]}
{"id": "C24", "title": "Decoding crafted files never panics", "statement": "For every byte string Decode returns a value or an error; it never panics.", "quantifier": "all byte strings, all options", "why_tests_cant": "All byte strings.", "anchors": ["psd.go:Decode", "layer.go", "imageres.go:hasAlphaID0"]}
{"id": "C25", "title": "Pixel pickers read the right sample", "statement": "For every depth and colour mode and every point inside the rectangle, At returns the colour made of the samples at the row major position of that point in each channel plane, and never indexes outside a plane of the size the decoder allocates; ColorModel is the model of the colours At returns.", "quantifier": "all rectangles, all points inside, all plane contents", "why_tests_cant": "All sizes, offsets and contents.", "anchors": ["picker.go"]}
{"id": "C26", "title": "Decode and DecodeConfig agree", "statement": "Whenever the image.Decode hook succeeds, the image.DecodeConfig hook succeeds on the same input with the width, height and colour model of the decoded image.", "quantifier": "all byte strings", "why_tests_cant": "All byte strings.", "anchors": ["psd.go:decode", "psd.go:decodeConfig"]}
{"id": "C27", "title": "Layer mask records", "statement": "For every mask record layout allowed by the format (length 0, 20, or 36 and more with any combination of the four optional density/feather parameters) parsing returns the fields at their specified offsets and consumes exactly the record.", "quantifier": "all field values, all parameter combinations", "why_tests_cant": "16 parameter combinations times all values.", "anchors": ["layer.go:readLayerMaskAndAdjustmentLayerData"]}
{"id": "C28", "title": "Real user mask rectangles keep their sign", "statement": "The rectangle of the real user supplied mask is returned with the signed coordinates stored in the file, like the mask rectangle is.", "quantifier": "all 32 bit signed coordinates", "why_tests_cant": "Negative coordinates are rare in samples.", "anchors": ["layer.go:readLayerMaskAndAdjustmentLayerData"]}
{"id": "C29", "title": "Integer formatting in error messages", "statement": "For every int except the smallest, the decimal formatting helper yields its canonical decimal representation.", "quantifier": "all 64 bit signed integers", "why_tests_cant": "2^64 values.", "anchors": ["util.go:itoa"]}
{"id": "C30", "title": "Colours are valid premultiplied colours", "statement": "For every value of every colour type of the color package, RGBA returns components with red, green, blue <= alpha <= 0xffff, computed without 32 bit overflow, namely the samples (floats clamped to [0, 1]) scaled to 16 bits times alpha.", "quantifier": "all values of NGrayA, NCMYKA, NCMYKA80, Gray1, and of the float types for every behaviour of the power function", "why_tests_cant": "2^32 and more values per type.", "anchors": ["color/color.go"]}
{"id": "C31", "title": "Colour models convert their own colours to themselves", "statement": "Converting a colour that already belongs to the model returns the same colour, and converting any colour returns a colour of the model's type without panic.", "quantifier": "all colours of all models", "why_tests_cant": "2^16..2^80 colours.", "anchors": ["color/color.go"]}
{"id": "C32", "title": "Draw touches exactly the clipped rectangle", "statement": "For every destination, rectangle, source and source point, the drawn area is the set of points of r inside the destination whose source point is inside the source (and mask point inside the mask), the three rectangles keep their alignment, and no pixel outside is read or written.", "quantifier": "all rectangles and points", "why_tests_cant": "All relative positions.", "anchors": ["blend/util.go:clip"]}
{"id": "C33", "title": "Drawing is pointwise and independent of the number of workers", "statement": "For images that do not share memory, each destination pixel in the clipped rectangle becomes the blend of the old pixel with the corresponding source pixel, every other pixel keeps its value, and the result is the same for every GOMAXPROCS value and every schedule of the workers.", "quantifier": "all images, all rectangles, all worker counts and schedules", "why_tests_cant": "Concurrency and all geometries.", "anchors": ["blend/draw.go:drawFunc.Parallel", "blend/util.go:prepare4to4", "blend/zblends.go"]}
{"id": "C34", "title": "Drawing an image onto itself", "statement": "Drawing an image onto itself with any overlap gives the same result as drawing from a snapshot of the image taken before.", "quantifier": "all images, all offsets, all worker counts and schedules", "why_tests_cant": "Races between workers are not reproducible by tests.", "anchors": ["blend/util.go:prepare4to4", "blend/util.go:processBackward", "blend/draw.go:drawFunc.Parallel"]}
{"id": "C35", "title": "Blend results stay in range", "statement": "For all 27 blend modes, all source and destination pixels and all opacities, the 8 bit path computes each channel without 32 bit overflow and without truncation in the final conversion to a byte.", "quantifier": "all (source, destination, opacity) triples: 2^72 cases", "why_tests_cant": "Too many cases to enumerate.", "anchors": ["blend/zblends.go", "blend/genblend.go"]}
{"id": "C36", "title": "Blend formulas are the documented formulas", "statement": "For all 8 bit channel values, each separable blend mode computes the documented formula rounded down.", "quantifier": "all pairs of channel values", "why_tests_cant": "Needs an independent formula, not a reference picture.", "anchors": ["blend/zblends.go", "blend/genblend.go"]}
{"id": "C37", "title": "Compositing laws", "statement": "In every blend mode: a fully transparent source or zero opacity leaves the destination unchanged; over a fully transparent destination the result has the source colour with the scaled alpha; over an opaque destination the result is opaque; an opaque source at full opacity gives an opaque result; Normal with an opaque source replaces the colour.", "quantifier": "all pixels, all modes, all opacities", "why_tests_cant": "2^64 pixel pairs.", "anchors": ["blend/zblends.go"]}
{"id": "C38", "title": "Compositing never reduces alpha", "statement": "Drawing in any blend mode never makes a destination pixel more transparent.", "quantifier": "all pixels and opacities", "why_tests_cant": "2^24 alpha triples.", "anchors": ["blend/zblends.go"]}
{"id": "C39", "title": "Wide paths of the Add mode saturate", "statement": "In the 16 bit paths (premultiplied source or destination) the Add mode saturates like the 8 bit path does.", "quantifier": "all pixels", "why_tests_cant": "2^64 pixel pairs.", "anchors": ["blend/zblends.go:drawAddRGBAToNRGBA"]}
{"id": "C40", "title": "Hue, saturation and luminosity modes", "statement": "The non separable modes never divide by zero, stay in 0..255, keep the target luminosity up to rounding, and set saturation gives exactly the requested spread whenever the input is not grey.", "quantifier": "all colour pairs: 2^48", "why_tests_cant": "Too many pairs.", "anchors": ["blend/util.go:setLum8", "blend/util.go:setSat", "blend/util.go:clipColor8"]}
{"id": "C41", "title": "Porter-Duff operators", "statement": "Each Porter-Duff operator computes its textbook coverage and colour on valid premultiplied 16 bit values, without overflow, and maps valid pixels to valid pixels.", "quantifier": "all valid pixels", "why_tests_cant": "2^64 pixel pairs.", "anchors": ["blend/zporterduffs.go", "blend/genporterduff.go"]}
{"id": "C42", "title": "Copy copies", "statement": "Copying pixels between two non-premultiplied images reproduces them exactly.", "quantifier": "all pixels", "why_tests_cant": "2^32 pixels.", "anchors": ["blend/zporterduffs.go:drawCopyNRGBAToNRGBA"]}
{"id": "C43", "title": "Tiling keeps every pixel", "statement": "For every layer rectangle, tile size and worker count, the tiled image shows at every point of the layer the source pixel (if not fully transparent) and nothing elsewhere.", "quantifier": "all rectangles, tile sizes, worker counts, pixel data", "why_tests_cant": "All geometries.", "anchors": ["composite/layerimage.go:newTiledImage", "composite/layerimage.go:newTiledImageInner"]}
{"id": "C44", "title": "Work is split without gaps or overlaps", "statement": "For every number of rows and every worker count, the row ranges given to the workers are disjoint and cover all rows (tile building, tile rendering, rendering, drawing, RLE decoding).", "quantifier": "all row counts and worker counts", "why_tests_cant": "All combinations.", "anchors": ["composite/layerimage.go", "composite/renderer.go:render", "blend/draw.go"]}
{"id": "C45", "title": "Clipping groups", "statement": "In every sibling list, each clipping layer is attached to the nearest non-clipping layer below it, each base lists its clipped layers bottom to top, and clipping layers without base belong to no group.", "quantifier": "all sibling lists", "why_tests_cant": "Unbounded lists.", "anchors": ["composite/builder.go:registerClippingGroup"]}
{"id": "C46", "title": "Cloned trees are isomorphic and separate", "statement": "Clone returns a tree with the same shape and attributes in which every parent, clip and clipped-by reference points to the corresponding layer of the clone, never to the original.", "quantifier": "all trees with distinct SeqIDs", "why_tests_cant": "Unbounded trees and pointer graphs.", "anchors": ["composite/cloner.go"]}
{"id": "C47", "title": "Parent links lead to the tree", "statement": "In a tree returned by New the parent of each layer is the folder that contains it.", "quantifier": "all files", "why_tests_cant": "Depends on slice reallocation.", "anchors": ["composite/layer.go:New", "composite/builder.go:buildLayer"]}
{"id": "C48", "title": "Incremental rendering equals rendering from scratch", "statement": "After any history of layer changes each announced with SetDirtyByLayer, renders and aborted renders, Render shows the same pixels as a fresh renderer would.", "quantifier": "all trees, all histories of changes, renders and aborts", "why_tests_cant": "Unbounded histories.", "anchors": ["composite/renderer.go"]}
{"id": "C49", "title": "Diff rendering", "statement": "After any history of announced changes and successful or aborted diff renders into one image, a successful RenderDiff leaves the image equal to a full Render.", "quantifier": "all histories", "why_tests_cant": "Unbounded histories.", "anchors": ["composite/renderer.go:RenderDiff"]}
{"id": "C50", "title": "Aborted renders leave no trace", "statement": "A render aborted at any point leaves the renderer in a state from which the next render is correct.", "quantifier": "all abort points and schedules", "why_tests_cant": "Abort points are timing dependent.", "anchors": ["composite/renderer.go:render"]}
{"id": "C51", "title": "Rendering does not depend on the schedule", "statement": "Rendering gives the same pixels and caches for every order in which the workers process tiles.", "quantifier": "all schedules and worker counts", "why_tests_cant": "Schedules are not controllable.", "anchors": ["composite/renderer.go:renderInner"]}
{"id": "C52", "title": "Waiting for workers", "statement": "parallelContext.Wait never returns before all registered workers are done, returns nil or ErrAborted, ErrAborted only if the context was cancelled, and leaves no goroutine blocked.", "quantifier": "all worker counts and interleavings", "why_tests_cant": "Interleavings.", "anchors": ["composite/context.go:parallelContext.Wait"]}
{"id": "C53", "title": "Cancelling New", "statement": "New always returns, also when its context is cancelled at any point.", "quantifier": "all files, cancellation points and schedules", "why_tests_cant": "Timing dependent.", "anchors": ["composite/layer.go:createCanvas", "composite/layer.go:createCanvasInner"]}
{"id": "C54", "title": "Thumbnail sheets", "statement": "The cells of a thumbnail sheet are pairwise disjoint and inside the sheet, the sheet is a square with power of two side not above 4096, it is the smallest such, and an error is returned only if 4096 is too small.", "quantifier": "all numbers of thumbnails and sizes", "why_tests_cant": "All combinations.", "anchors": ["composite/thumbnail.go:ThumbnailSheet"]}
{"id": "C55", "title": "Trimming keeps the visible pixels", "statement": "Trimming the unused border of a thumbnail keeps every pixel with alpha above the threshold.", "quantifier": "all images", "why_tests_cant": "All images.", "anchors": ["composite/thumbnail.go:trimUnusedArea"]}
{"id": "C56", "title": "Transformed rectangles cover their image", "statement": "The transformed rectangle contains the image of every point of the rectangle, and the identity transformation keeps the rectangle.", "quantifier": "all rectangles and affine maps", "why_tests_cant": "All maps.", "anchors": ["composite/layer.go:transformRect"]}
{"id": "C57", "title": "Every blend mode of the format can be rendered", "statement": "Rendering a layer tree never panics whatever blend modes the layers carry.", "quantifier": "all trees", "why_tests_cant": "All mode values.", "anchors": ["composite/draw.go:blendModes", "composite/renderer.go:drawLayer"]}
{"id": "C58", "title": "Masks hide what they cover", "statement": "A layer whose enabled mask is completely black is invisible, independent of the schedule of the loader.", "quantifier": "all masks, all schedules", "why_tests_cant": "Schedule dependent.", "anchors": ["composite/layer.go:createCanvasInner", "composite/layerimage.go:newTiledMask"]}
{"id": "C59", "title": "The 16 bit blend paths stay in range", "statement": "For every blend mode but Add, every combination of premultiplied and straight byte images and the generic fallback compute without 32 bit overflow, give valid pixels, and keep premultiplied destinations premultiplied; a premultiplied source is copied exactly onto an empty pixel and Normal replaces the pixel when the source is opaque.", "quantifier": "all valid pixels, opacities and image kinds", "why_tests_cant": "2^72 combinations per mode and image kind, including float64 luminosity code.", "anchors": ["blend/zblends.go", "blend/util.go:setLum16", "blend/util.go:clipColor16"]}
{"id": "C60", "title": "Loading does not depend on the schedule", "statement": "New builds the same tree from the same file, whatever the schedule of its goroutines and however many there are: the layers, their images and masks, and what the tree shows.", "quantifier": "all files, numbers of goroutines and schedules", "why_tests_cant": "Goroutines change layers while the decoder copies them; the outcome depends on the interleaving.", "anchors": ["composite/layer.go:createCanvas", "composite/layer.go:createCanvasInner", "composite/builder.go:buildLayer", "layer.go:buildTree"]}
{"id": "C61", "title": "All builds decode RLE image data alike", "statement": "For every RLE compressed image data, the ordinary build on any number of processors, the wasm build and the GopherJS build produce the same pixels, or all of them report an error.", "quantifier": "all compressed data, line lengths, numbers of processors, and the three builds", "why_tests_cant": "The tests run on one build and a few files; the decoders differ in how they split the lines and in how they step over each kind of packet.", "anchors": ["compress_other.go:decodePackBits", "compress_wasm_js.go:decodePackBits", "compress_js.go:decodePackBits", "compress.inc.js:decodePackBits"]}
{"id": "C62", "title": "Drawing a layer's tiles reproduces the layer", "statement": "When the tiles of a layer are drawn into one image (for a thumbnail or a transformation), every pixel of the layer's rectangle is the pixel shown by the tiles, transparent where there is no tile, whatever the image held before; nothing panics.", "quantifier": "all tile maps that the tile builder makes, processor counts, schedules, former contents of the buffer", "why_tests_cant": "The buffer is reused between thumbnails, tiles are missing in arbitrary patterns, and the rows are split among goroutines.", "anchors": ["composite/layerimage.go:Render", "composite/layerimage.go:renderInner", "composite/thumbnail.go:Thumbnail", "blend/zporterduffs.go:copy", "blend/zporterduffs.go:clear"]}
{"id": "C63", "title": "Transforming a tree by the identity keeps its layers", "statement": "Tree.Transform with the identity matrix gives a tree in which exactly the same layers have images and masks, and every point of them shows the same pixel and mask value.", "quantifier": "all layer images, tile sizes, gamma values, processor counts, schedules and map orders", "why_tests_cant": "The images are drawn, cut into tiles again and put into a map by concurrent workers; no finite set of images covers the combinations.", "anchors": ["composite/layer.go:Transform", "composite/layer.go:transformInner", "composite/layerimage.go:Transform", "composite/layerimage.go:newScaledTiledImage", "composite/layerimage.go:newScaledTiledMask"]}
{"id": "C64", "title": "A file of opaque layers is shown as its layers painted one over the other", "statement": "For an RGB file of 8 bits per channel whose layers are fully opaque (opacity 255, no mask, no clipping, every pixel opaque or invisible), New succeeds, and Render shows at every point of the canvas the visible layers painted from the bottom to the top: each in its blend mode, folders first by themselves unless they pass through, hidden layers and the contents of hidden folders not at all. If all modes are normal, this is the topmost visible pixel.", "quantifier": "all such files (trees of any depth, compressions, PSD and PSB), tile sizes, schedules of the loader and of the renderer, processor counts, rendered rectangles", "why_tests_cant": "It connects decoding, concurrent loading, tiling, the order of the tree and rendering; the files and schedules are unbounded.", "anchors": ["composite/layer.go:New", "composite/layer.go:createCanvas", "composite/builder.go:buildLayer", "composite/renderer.go:render", "psd.go:Decode"]}
{"id": "C65", "title": "A file of 16 bits shows the same picture as the file of its high bytes", "statement": "If New accepts an RGB file of 16 bits per channel, it shows the same picture as the file of 8 bits that holds the high bytes of all channels.", "quantifier": "all RGB files of depth 16", "why_tests_cant": "Every content of the planes is a case of its own; the wrong picture has no error to test for.", "anchors": ["composite/layer.go:createCanvas", "composite/layer.go:createCanvasInner"]}
{"id": "C66", "title": "The merged image is the picture in the file", "statement": "Decoding a file gives a merged image of the size of the header whose pixels have the colours that their samples mean: bits (set bits are black), entries of the colour table (three planes of 256, the transparent index clear), or grey, RGB, CMYK samples with the channel behind the colours as alpha if it exists and the resource with the alpha identifiers is missing or lists 0; every channel is found under its number. image.Decode returns this image and image.DecodeConfig its size and colour model.", "quantifier": "all sizes, sample contents, resources, layer sections (empty or with any tree), raw or PackBits image data, PSD and PSB, processor counts", "why_tests_cant": "Planes of any size and content, with any compressed form of each row; resources in any number and order.", "anchors": ["psd.go:Decode", "psd.go:makePicker", "psd.go:Palette", "imageres.go:hasAlphaID0", "picker.go"]}
{"id": "C67", "title": "Converted colours look like the original", "statement": "The colour that a model of package color returns for a colour of package image (or of any other package) has the same RGBA up to the rounding to the samples of the model; grey models keep the brightness, and models with alpha keep alpha.", "quantifier": "all premultiplied colours, all models of package color, every behaviour of the floating point operations", "why_tests_cant": "2^64 colours for each model.", "anchors": ["color/color.go"]}
{"id": "C68", "title": "A file with masks and clipping groups is shown as painted", "statement": "After New on an RGB file of 8 bits whose layers have opaque or invisible pixels, black and white masks, opacities 0 or 255 and clipping groups, Render shows at every point what painting the groups one over the other gives: each layer through its mask, with the layers clipped to it blended into it.", "quantifier": "all such files (PSD and PSB, any compression), all trees, tile sizes, rectangles and numbers of workers, all schedules of loader and renderer", "why_tests_cant": "Trees, masks, modes, tilings and schedules cannot be enumerated.", "anchors": ["composite/layer.go:New", "composite/layerimage.go", "composite/builder.go", "composite/renderer.go", "psd.go:Decode"]}
{"id": "C69", "title": "The picture does not depend on the size of the tiles", "statement": "The pixel that Render shows at a point is the same whatever the tile size, the number of workers, the schedule and the rectangle rendered.", "quantifier": "all files, all tile sizes, rectangles, numbers of workers and schedules", "why_tests_cant": "A test compares a few tile sizes on a few files; the property relates every two executions.", "anchors": ["composite/renderer.go", "composite/layerimage.go", "composite/layer.go:New"]}
{"id": "C70", "title": "A file with layers of any transparency is shown as composited", "statement": "After New on an RGB file of 8 bits, Render shows at every point the pixel that results from compositing the layers from the bottom to the top: each picture or folder through its mask, with the layers clipped to it blended into its opaque copy and cut to its shape, blended with its mode and opacity over what is below; pass-through folders draw on what is below with their opacity handed down. Masks that are on have data, no density or feather, default colour 0 or 255, and are not the same everywhere (C60).", "quantifier": "all such files (PSD and PSB, any compression), all trees, pixels, masks and opacities, tile sizes, rectangles and numbers of workers, all schedules of loader and renderer", "why_tests_cant": "Trees, pixels, masks, opacities, modes, tilings and schedules cannot be enumerated.", "anchors": ["composite/layer.go:New", "composite/layerimage.go", "composite/builder.go", "composite/renderer.go", "composite/draw.go", "psd.go:Decode"]}
{"id": "C71", "title": "Blending follows the compositing formula", "statement": "Drawing an NRGBA source over an NRGBA destination with a blend mode and an opacity gives the pixel of the W3C compositing formula with the documented colour of the mode, but for rounding down by less than three levels of the premultiplied colour.", "quantifier": "all blend modes, opacities, source and destination pixels", "why_tests_cant": "2^72 combinations; a test compares a few with a reference.", "anchors": ["blend/genblend.go", "blend/zblends.go"]}
{"id": "C72", "title": "A layer on top of a picture changes it as its blend mode says", "statement": "After New on an RGB file of 8 bits, wherever the topmost layer has a pixel of alpha 128 or more, Render shows the picture of the layers below, changed by the compositing formula with the documented colour of the blend mode that the key in the file names and the opacity of the layer.", "quantifier": "all files as in C70 with a visible unmasked topmost layer, all blend mode keys and opacities, all tile sizes, rectangles, numbers of workers and schedules", "why_tests_cant": "Files, pixels, modes, opacities and schedules cannot be enumerated; tests compare a few files with stored images.", "anchors": ["composite/draw.go", "composite/renderer.go", "composite/builder.go", "blend/genblend.go", "psd.go:Decode"]}
{"id": "C73", "title": "A changed tree shows the picture of the changed file", "statement": "After New and Clone of an RGB file of 8 bits whose pixels are opaque or invisible, the fields Visible, Opacity (0 or 255) and BlendMode of any layers may be changed any number of times and announced later, with renders, diff renders and aborted renders at any time. When all changes are announced, Render shows what New and Render show of the file in which the layers are stored with these values.", "quantifier": "all such files, all sequences of changes, announcements and renders, all tile sizes, rectangles, numbers of workers and schedules", "why_tests_cant": "Files and sequences of operations cannot be enumerated; a stale cache shows only in some of them.", "anchors": ["composite/renderer.go:SetDirtyByLayer", "composite/renderer.go:Render", "composite/builder.go", "composite/cloner.go"]}
{"id": "C74", "title": "With 16 bit arithmetic the blend modes follow the documented formulas", "statement": "Drawing between image.RGBA and image.NRGBA images and between other image types computes with 16 bits per channel: the result is the pixel of the W3C compositing formula with the documented colour of the blend mode, but for a few levels of 65535. Exceptions: SoftLight is up to 3.5% too bright for a bright source over a dark backdrop, VividLight and HardMix differ for the pairs named in the specification, Add wraps around (C39).", "quantifier": "all blend modes but Add, all opacities and masks, all source and destination pixels", "why_tests_cant": "2^96 combinations; there is no reference to compare with.", "anchors": ["blend/genblend.go", "blend/zblends.go", "blend/util.go"]}
{"id": "C75", "title": "A translation by whole pixels moves the layers and changes no colour", "statement": "If New is given a translation by whole pixels as TransformMatrix, or Tree.Transform is called with one, every layer shows at the moved place what it showed before, and nothing elsewhere; masks are moved alike and keep their default colour elsewhere. This holds with and without gamma.", "quantifier": "all layers, masks, translations, gamma values, tile sizes, numbers of workers and schedules", "why_tests_cant": "Unbounded images and translations; errors appear at single rows, tile borders and grey levels only.", "anchors": ["composite/layerimage.go:newScaledTiledImage", "composite/layerimage.go:newScaledTiledMask", "composite/layerimage.go:makeGammaTable", "composite/layerimage.go:createImageGamma", "composite/layerimage.go:restoreGamma", "composite/layer.go:Transform"]}
{"id": "C76", "title": "Thumbnails show the visible part of every layer", "statement": "For a tree of New (or Transform), Thumbnail and Thumbnails do not panic; every layer that shows something has a thumbnail, which is the scaled picture of the smallest rectangle around its visible pixels; it does not depend on the contents or length of the temporary buffer, on the other layers, on the number of workers or on the schedule. ThumbnailSheet shows each thumbnail inside the rectangle that it returns for the layer and nothing elsewhere.", "quantifier": "all trees, layers, thumbnail sizes, buffers, numbers of workers and schedules", "why_tests_cant": "Stale pixels of a reused buffer, panics for rare layers and races show only in some runs.", "anchors": ["composite/thumbnail.go:Thumbnail", "composite/thumbnail.go:Thumbnails", "composite/thumbnail.go:ThumbnailSheet", "composite/thumbnail.go:trimUnusedArea"]}
{"id": "C77", "title": "New presents the names and attributes of the layers", "statement": "The tree that New makes of a loaded file has the layers and folders of the file in their nesting and order, each with its number, name, opacity, visibility, clipping, blend mode and mask flags. The name is the Unicode name if the file has one; otherwise the other name is decoded with the encoding that the detector finds for all such names together, and kept as it is if it cannot be decoded. The detector is asked at most once, and only if it is needed. Without a detector names are kept as they are.", "quantifier": "all RGB files of any depth, PSD or PSB, all trees, all encodings and detectors, all executions of the loader", "why_tests_cant": "Trees of any shape and size; the detector's answer depends on every name of the file, and the loader runs concurrently.", "anchors": ["composite/builder.go:build", "composite/builder.go:buildLayer", "composite/builder.go:getLayerNameEncoding", "composite/builder.go:gatherLayerName", "layer.go:FolderIsOpen", "layer.go:Visible"]}
{"id": "C78", "title": "Tree.Rect covers everything that is visible", "statement": "After New, Tree.Rect lies in the canvas and contains every point of the canvas at which any picture of the file has a visible pixel, so that rendering Tree.Rect loses nothing: Render shows nothing at the other points of the canvas. Tree.Rect is not larger than the smallest box of whole tiles around all layers.", "quantifier": "all files of C70, tile sizes, numbers of workers and executions of the loader", "why_tests_cant": "The rectangles of the layers are replaced by those of their tiles while the tree is built; which of them is used depends on the schedule.", "anchors": ["composite/builder.go:build", "composite/builder.go:buildLayer", "composite/layer.go:New"]}
{"id": "C79", "title": "psdexporter writes every picture to a file of its own", "statement": "The command psdexporter makes at most one file per layer that has an image, in any tree of folders; the names of the files are the positions of the layers and never collide, so that no picture overwrites another; every file gets the picture of the layer at that position. If all files can be created and all images encoded, every layer with an image has its file; otherwise the command stops at the first that cannot, and all files before are complete.", "quantifier": "all files with layers, of all modes and depths, all trees, all outcomes of os.Create and png.Encode", "why_tests_cant": "Collisions of names depend on the shape of the tree and the number of layers (more than 1000 in a folder); failures at any file.", "anchors": ["psdexporter/main.go:processLayer", "psdexporter/main.go:main", "layer.go:HasImage"]}
{"id": "C80", "title": "Names of blend modes are unambiguous", "statement": "BlendMode.String returns the documented name of every blend mode of the format, and two different values, known or unknown, never have the same name.", "quantifier": "all strings of bytes", "why_tests_cant": "The values are arbitrary strings read from the file.", "anchors": ["blendmode.go:String"]}
{"id": "C81", "title": "Moving the tree moves the picture", "statement": "If a file is loaded and its tree is moved by whole pixels with Transform, every Render of the new tree shows at every moved point the pixel that the layers of the file give at the original point (with folders, clipping groups, masks, opacities and blend modes), as long as no coordinate is negative, and shows nothing where no layer has pixels.", "quantifier": "all RGB files of 8 bits with any tree of folders and layers whose pixels are opaque or transparent, without pass-through folders and white masks; all translations by whole pixels, tile sizes, numbers of workers, schedules, rendered rectangles; all scaling libraries that copy pixels under translations", "why_tests_cant": "The moved images are cut into other tiles than the loaded ones, by several goroutines, then composed by the renderer; the result depends on every layer, offset and schedule.", "anchors": ["composite/layer.go:Transform", "composite/layerimage.go:Transform", "composite/layerimage.go:Transform", "composite/renderer.go:Render"]}
{"id": "C82", "title": "New with an offset moves the picture", "statement": "If a file is loaded by New with Options.TransformMatrix set to a translation by whole pixels (zeros in the diagonal stand for ones) and no gamma, every Render of the tree shows at every moved point the pixel that the layers of the file give at the original point (with folders, clipping groups, masks, opacities and blend modes), as long as no coordinate is negative, and shows nothing where no layer has pixels.", "quantifier": "all RGB files of 8 bits with any tree of folders and layers whose pixels are opaque or transparent, without pass-through folders and white masks; all translations by whole pixels, tile sizes, numbers of workers, schedules, rendered rectangles; all scaling libraries that copy pixels under translations", "why_tests_cant": "The images are moved and cut into tiles by the goroutines of the loader while the tree is built from the same records; whether a mask counts depends on the tiles made of it.", "anchors": ["composite/layer.go:New", "composite/layer.go:createCanvas", "composite/layer.go:createCanvasInner", "composite/layerimage.go:newScaledTiledImage", "composite/layerimage.go:newScaledTiledMask", "composite/renderer.go:Render"]}
{"id": "C83", "title": "New with an offset shows the file with moved layers", "statement": "Loading a file by New with Options.TransformMatrix set to a translation by whole pixels (zeros in the diagonal stand for ones) and no gamma gives the same pictures as loading, without options, the file whose layers and masks lie at the new place: the results that Render can have are the same, for every region, state of the renderer and schedule, also at negative coordinates.", "quantifier": "all RGB files of 8 bits with any tree of folders (also pass-through), clipping groups, blend modes, opacities and masks, whose pixels are opaque or transparent and whose masks in use hide what they do not cover; all translations by whole pixels for which the moved file exists; all tile sizes, numbers of workers, schedules; all scaling libraries that copy pixels under translations", "why_tests_cant": "The two programs make images of different rectangles (the scaled ones are larger), cut them into tiles by several goroutines and decide by the tiles whether a mask counts; equality has to hold for every file, offset and schedule.", "anchors": ["composite/layer.go:New", "composite/layer.go:createCanvas", "composite/layer.go:createCanvasInner", "composite/layerimage.go:newScaledTiledImage", "composite/layerimage.go:newScaledTiledMask", "composite/layerimage.go:newTiledImage", "composite/layerimage.go:newTiledMask", "composite/renderer.go:Render"]}
{"id": "C84", "title": "Fourteen checks prevent every panic of Decode and refuse nothing else", "statement": "There is a list of fourteen conditions on what the decoder has read (a section divider of less than four bytes, a unicode name shorter than its length, an unknown colour mode or one without picker, a channel id beyond the channels, a size that overflows, an RLE table or block beyond the address space, a colour table, transparency index or alpha identifiers that are cut off, fewer channels than the colour mode has) such that Decode panics on a file if and only if one of them fails. A decoder that returns an error where a condition fails never panics, and on every other file it returns the same value or error after the same callbacks. If layer images are skipped only the conditions on records and merged image can fail; if the merged image is skipped only those on records and layer images.", "quantifier": "all byte strings, options, kinds of reader (plain, discarding, seekable, in chunks), numbers of processors, inflate libraries; also the hooks of package image", "why_tests_cant": "That a list of causes is complete is a statement about all files; tests find causes but cannot show that there are no others.", "anchors": ["psd.go:Decode", "psd.go:makePicker", "psd.go:Palette", "layer.go:readLayerImage", "layer.go:readLayerInfo", "layer.go:readSectionDividerSetting", "layer.go:readAdditionalLayerInfo", "imageres.go:hasAlphaID0", "compress_other.go:decodePackBits", "compress.go:decodeDelta", "picker.go:findPicker"]}
{"id": "C85", "title": "An incomplete file is not accepted, and what follows a file does not matter", "statement": "If Decode accepts a file and reports n bytes then it accepts no proper prefix of those n bytes: a file that is cut off anywhere, down to its last byte, is an error and never a picture (from seekable readers: if the merged image is read). If other data follow the file then Decode returns the same value, the same count, after the same callbacks, and leaves exactly the other data unread. Both hold for merged images that are not compressed or run length encoded; for a zlib merged image the decoded value does not depend on what follows. If the merged image is skipped the second part needs some data after the layers. From a seekable reader the reported count is the distance by which the position moved, for every accepted file.", "quantifier": "all byte strings, all cut positions, all trailing data, options, kinds of reader, numbers of processors and inflate libraries", "why_tests_cant": "Tests try a few cuts of a few files; where a length in the file decides how much is read, a cut can be taken for another valid file, and only a proof about all files excludes it.", "anchors": ["psd.go:Decode", "psd.go:DecodeConfig", "layer.go:readLayerAndMaskInfo", "layer.go:readLayerInfo", "layer.go:readLayerImage", "layer.go:readAdditionalLayerInfo", "imageres.go:readImageResource", "compress.go:Decode", "util.go:adjustAlign4"]}
{"id": "C86", "title": "With 8 bits Hue, Saturation, Color and Luminosity are the W3C formulas but for rounding the brightness", "statement": "Hue, Saturation, Color and Luminosity of 8 bit colours give the colour that the formulas of the W3C document (SetLum, ClipColor, SetSat) give with exact numbers, with each channel off by less than one level plus one level of brightness (less than 4.4 levels for red, 2.7 for green, 10.2 for blue); where the colour need not be clipped each channel is off by less than one level.", "quantifier": "the four modes, all 8 bit source and backdrop colours", "why_tests_cant": "2^48 pairs of colours for each mode; the error of the clipping step depends on both, and a few tested colours do not show its largest value.", "anchors": ["blend/util.go:setLum8", "blend/util.go:clipColor8", "blend/util.go:lum8", "blend/util.go:setSat", "blend/zblends.go"]}
{"id": "C87", "title": "The picture of a stack of layers is exact up to a few levels for each layer", "statement": "After New on an RGB file of 8 bits, at every point where the lower layers give an opaque picture, Render shows the colour that putting the upper layers one over the other by the compositing formula gives with exact numbers, up to 2.5 levels for each visible upper layer whose mode needs no rounding (normal, darken, lighten, linear burn, linear dodge, difference, subtract) and 3.5 levels for each other one (multiply, screen, hard light, linear light, pin light, exclusion), and 3 levels more for each one with a mask. Rounding errors do not grow from layer to layer faster than that.", "quantifier": "all files as in C70 with any number of unclipped upper layers of these modes, all alphas, masks and opacities, tile sizes, rectangles, numbers of workers and schedules", "why_tests_cant": "The error of a stack is the sum of errors that depend on all its pixels; tests compare a few stacks with stored images made by the same arithmetic.", "anchors": ["composite/draw.go", "composite/renderer.go", "composite/builder.go", "blend/genblend.go", "psd.go:Decode"]}
{"id": "C88", "title": "The alpha of the picture is the coverage of the layers, up to a few levels", "statement": "After New on an RGB file of 8 bits, the alpha that Render shows at a point is the exact coverage: starting with nothing, every visible unclipped layer leaves the part (1 - alpha * mask * opacity) of what was open; a folder covers what its layers cover together, times its mask and opacity; layers in a pass-through folder without a mask count as if they lay outside it, with the product of the opacities; clipped layers and blend modes change nothing. The picture has at most three levels less for each layer, one more for each pass-through folder around it and for each mask, and at most one level more than the exact value for each mask (never more without masks).", "quantifier": "all files as in C70 in which no pass-through folder has a mask, any nesting of folders, all modes, alphas, masks and opacities, tile sizes, rectangles, numbers of workers and schedules", "why_tests_cant": "The rounding of every layer depends on all the layers below it; tests compare a few stored images. A wrong alpha shows only when the picture is put over something else.", "anchors": ["composite/draw.go", "composite/renderer.go", "composite/builder.go", "blend/genblend.go", "psd.go:Decode"]}
{"id": "C89", "title": "Invisible layers and the order of layers that do not overlap do not matter", "statement": "Take two RGB files of 8 bits whose layers are the same except that in the second some invisible layers or folders are missing, at any depth (hidden, of opacity 0, or without a visible pixel in any picture; with them the layers clipped to them), and some neighbouring layers or isolated folders whose pictures do not overlap have changed places. Whatever else is different in the files (header, resources, PSD or PSB, options of the decoder, schedules), New and Render with tiles of one size show the same pixel at every point.", "quantifier": "All such files with any opacities, masks, blend modes, clipping groups, pass-through folders and nesting; all tile sizes, schedules, rectangles; all points with coordinates that are not negative.", "why_tests_cant": "Where an invisible layer is in the tree, what is clipped to it, whether the folder around it passes through and which tiles it would have touched can be combined in unboundedly many ways; a test tries a few trees.", "anchors": ["composite/draw.go", "composite/renderer.go", "composite/builder.go", "blend/genblend.go", "psd.go:Decode"]}
{"id": "C90", "title": "A pass-through folder over an opaque picture can be dissolved", "statement": "Take an RGB file of 8 bits with a visible pass-through folder without a mask, to which nothing is clipped, at the top level or at any depth in isolated folders and in pass-through folders of the full opacity, and the file in which the layers in the folder take its place, with the opacity of the folder multiplied into theirs. After New, where the layers below the folder give an opaque picture, Render shows the same pixel for both, exactly and not just up to rounding: whatever the blend modes, clipping groups and folders inside and above, and whatever else differs in the files.", "quantifier": "all such files with any content of the folder and any layers below and above, all opacities, tile sizes, rectangles, numbers of workers and schedules, all points whose coordinates are not negative and where the picture below is opaque", "why_tests_cant": "That pass-through folders leave the picture below alone depends on copies of buffers, on the multiplication of opacities at each level and on which tiles are drawn at all; tests compare a few stored images.", "anchors": ["composite/draw.go", "composite/renderer.go", "composite/builder.go", "blend/genblend.go", "psd.go:Decode"]}
{"id": "C91", "title": "The picture depends only on what the layers show", "statement": "Take two RGB files of 8 bits with the same tree of layers in which the layers at the same place have the same pixels, eye, opacity, blend mode, clipping and mask values. How they are stored may differ: rectangles with more or less transparent margin or with parts outside of the image, the order and compression of the channels, the colour of invisible pixels, an alpha channel that is opaque everywhere or none, a mask that is white everywhere or switched off or none (except on pass-through folders), names, other layer information, header, resources, PSD or PSB. New and Render with tiles of one size show the same pixel at every point.", "quantifier": "all such files with any tree of layers, any encodings, all tile sizes, rectangles, numbers of workers and schedules; all points whose coordinates are not negative", "why_tests_cant": "The renderer works on tiles cut from the stored rectangles and skips tiles that a rectangle does not reach; whether a margin, a plane order or a white mask changes some pixel depends on combinations of unboundedly many files, of which tests hold a handful.", "anchors": ["composite/draw.go", "composite/renderer.go", "composite/builder.go", "blend/genblend.go", "psd.go:Decode"]}
{"id": "C92", "title": "An opaque layer hides what is below it", "statement": "Take two RGB files of 8 bits that have the same layers from one visible layer or isolated folder of the mode normal and the opacity 255 on, at the top level or in folders that are isolated or pass through with the full opacity and no mask. Below that layer in the same list, and below a pass-through folder around it, the layers may be entirely different. After New, where the picture of that layer with its mask and its clipped layers is opaque, Render shows the same pixel for both files, whatever the layers above do and whatever else differs in the files.", "quantifier": "all such files, with any layers, folders, masks, modes and clipping groups below and above; all tile sizes, rectangles, numbers of workers and schedules; all points whose coordinates are not negative and where the layer is opaque", "why_tests_cant": "A level of what is below could shine through for some colour or shape of the tree (buffers that are reused, tiles that are skipped, rounding of 255); tests see a few pictures and colours.", "anchors": ["composite/draw.go", "composite/renderer.go", "composite/builder.go", "blend/genblend.go", "psd.go:Decode"]}
{"id": "C93", "title": "Grey layers show a grey picture", "statement": "Take an RGB file of 8 bits with layers of any blending modes, opacities, masks, folders and clipping groups. After New, at every point where the pixel of every picture of the file has three equal colours, the pixel that Render shows has three equal colours.", "quantifier": "all such files; all tile sizes, rectangles, numbers of workers and schedules; all points whose coordinates are not negative", "why_tests_cant": "The modes Hue, Saturation, Color, Luminosity, Darker Color and Lighter Color have code of their own for the three colours, and every step rounds; a tint of one level for some grey in some mode is not seen with a few pictures.", "anchors": ["composite/draw.go", "composite/renderer.go", "composite/builder.go", "blend/genblend.go", "psd.go:Decode"]}
{"id": "C94", "title": "Every colour is treated by itself, and all in the same way", "statement": "Take two RGB files of 8 bits with the same tree of layers, used in the same way (eyes, opacities, blending modes, clipping, mask values), without the modes Darker Color, Lighter Color, Hue, Saturation, Color and Luminosity. Let one colour of the pictures of the first file have the same levels as one colour, the same or another, of the pictures of the second, with the same alphas. After New, Render shows pixels that have the same levels of these colours and the same alphas.", "quantifier": "all pairs of such files; all pairs of colours; all tile sizes, rectangles, numbers of workers and schedules; all points whose coordinates are not negative", "why_tests_cant": "An index that is off by one in one of the many copies of the pixel loops, or a value of one colour left in a variable for the next, changes some levels in some modes only; tests with a few pictures, often grey, do not notice.", "anchors": ["composite/draw.go", "composite/renderer.go", "composite/builder.go", "blend/genblend.go", "psd.go:Decode"]}
{"id": "C95", "title": "Layers of darkening modes never lighten, those of lightening modes never darken", "statement": "Take an RGB file of 8 bits and another with the same layers and more on top of them: pictures or isolated folders of any opacities and masks, all of the modes Darken, Multiply, Color Burn, Linear Burn and Subtract (or all of Lighten, Screen, Color Dodge, Linear Dodge and Divide), possibly with layers of any modes clipped to them. After New, wherever Render shows an opaque pixel for the first file, it shows for the second an opaque pixel none of whose colours is brighter (or darker).", "quantifier": "all such pairs of files; all tile sizes, rectangles, numbers of workers and schedules; all points whose coordinates are not negative", "why_tests_cant": "Division by 255 with multiplication and shifts, and the weights of the compositing formula, are rounded several times; that no combination of mode, opacity, mask and colours goes the wrong way by one level cannot be seen with some pictures.", "anchors": ["composite/draw.go", "composite/renderer.go", "composite/builder.go", "blend/genblend.go", "psd.go:Decode"]}
{"id": "C96", "title": "Layers of the neutral colour of their mode change nothing", "statement": "Take an RGB file of 8 bits and the same file without one layer, a picture that is not clipped and has no layer clipped to it, at the top level or in isolated folders. Where that picture is transparent or has the neutral colour of its mode (white for Darken, Multiply, Color Burn, Linear Burn and Divide; black for Lighten, Screen, Color Dodge, Linear Dodge, Add, Difference, Exclusion and Subtract) and lies over an opaque picture, Render after New shows the same pixel for both files, whatever the opacity and the masks. The greys that leave every opaque pixel as it is are these, 128 for Overlay, Linear Light and Pin Light, 126 to 129 for Soft Light, and no others; Hard Light and Vivid Light have no neutral grey.", "quantifier": "all such pairs of files; all tile sizes, rectangles, numbers of workers and schedules; all points whose coordinates are not negative; for the greys all modes that treat the colours one by one, all levels and all backdrops", "why_tests_cant": "A rounding of one level in any of the roundings (of the blend, of the weights, of the copy of faint pixels) would change some backdrop at some opacity; only all combinations show that there is none.", "anchors": ["composite/draw.go", "composite/renderer.go", "composite/builder.go", "blend/genblend.go", "psd.go:Decode"]}
{"id": "C97", "title": "The picture is not brighter than the layers it is made of", "statement": "After New on an RGB file of 8 bits whose layers have the modes Normal, Darken, Multiply, Color Burn, Linear Burn, Darker Color, Lighten, Lighter Color, Pin Light, Difference and Subtract, with any alphas and opacities, in any folders (isolated or pass-through) and clipping groups: if at a point the visible pixels of all pictures have at most the red R, the green G and the blue B, then so has the pixel that Render shows, whatever its alpha. Masks must be black or white at the point, and pass-through folders without a mask.", "quantifier": "all such files and colours; all tile sizes, rectangles, numbers of workers and schedules; all points whose coordinates are not negative", "why_tests_cant": "Colours are multiplied by alpha and divided by another rounded alpha at every step; a faint pixel divided by an alpha that was rounded down gets too bright. Only all colours and alphas show where this happens and where not.", "anchors": ["composite/draw.go", "composite/renderer.go", "composite/builder.go", "blend/genblend.go", "psd.go:Decode"]}
{"id": "C98", "title": "New with an offset and a gamma shows the file with moved layers of other colours", "statement": "Take an RGB file of 8 bits whose pictures have only opaque and transparent pixels and whose masks hide what they do not cover. The trees that New makes of it with an offset of whole pixels and a Gamma render exactly as the trees that New makes without options of the file in which all layers are moved by the offset and every colour value is replaced: with Gamma 2 or 1/2 every value from 1 to 254 by the next smaller one, with another Gamma by the value that the two gamma tables give. Without Gamma or without offset no colour changes.", "quantifier": "all such files, offsets, gammas, tile sizes, rectangles, states of the renderer, numbers of workers and schedules; all signs of the coordinates", "why_tests_cant": "The tables round down twice, the library is given an image of 16 bits of another layout, and the tiles are built from its bytes with other strides: an error in any of these shows only for some values, offsets or tile borders.", "anchors": ["composite/layerimage.go:newScaledTiledImage", "composite/layerimage.go:makeGammaTable", "composite/layerimage.go:createImageGamma", "composite/layerimage.go:restoreGamma", "composite/layer.go:New", "psd.go:Decode"]}
{"id": "C99", "title": "Layers of one colour show this colour", "statement": "Take an RGB file of 8 bits with layers of the modes Normal, Darken, Darker Color, Lighten, Lighter Color, Pin Light, Hue, Saturation, Color and Luminosity in isolated folders of these modes without masks, with any opacities and no clipped layers; masks of the pictures show the point fully or not at all. If at a point the pictures are transparent or opaque and of one colour, then the pixel that is shown has exactly this colour if it is opaque; if it is translucent, red, green and blue are too dark by at most two levels and never too bright.", "quantifier": "all such files, points, colours, opacities, numbers and depths of layers and folders, tile sizes, numbers of workers and schedules", "why_tests_cant": "Every layer divides by the new alpha and every copy of a tile multiplies by it and divides again; whether errors add up over any number of layers cannot be seen from a few stacks.", "anchors": ["composite/draw.go", "composite/renderer.go", "composite/builder.go", "blend/genblend.go", "psd.go:Decode"]}
