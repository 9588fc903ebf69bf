# Formal model of oov/psd: design and trusted base

The model is in `rocq/theories` (Rocq/Coq 8.16.1, standard library only).
Each file is a model file (`M*`: definitions transcribed from `/repo`, with file and line citations and no proofs),
a specification file (`S*`: small independent definitions used to state properties),
a proof file (`P*`), or a theorem file (`T*`: theorems, examples that meet their hypotheses, witnesses, and
`Print Assumptions`). `X*`: data for examples. `Base`, `BaseFacts`: bytes, results, association lists.

A property that is false of the code is stated in full as `..._refuted` (a witness that the kernel computes);
the part that holds is a theorem beside it. `..._partial` marks a theorem that proves less than the property, and its comment
says what is missing. `MANIFEST.json` lists the theorems per property, `seeded/LOG.jsonl` the mutations of the model that
were tried against them. There "failed" means that the proof script of the theorem, or of a lemma that it depends on, no longer goes through.

## Conventions of the model

* Go `byte`, `uint32`, `int` ... values are Coq `Z`. Wrap around is written explicitly (`u8`, `u16`, `u32`, `i64`) wherever
  the Go operation can overflow; where it is left out, a theorem or the comment says why it cannot. The pixel arithmetic is
  parametrised by the word operations (`machine`, `ideal`), so that "nothing wraps" is a theorem.
* Results are `Ok v | Err e | Panic | NoFuel`. Panics (index out of range, nil interface call, negative make, division by zero)
  are explicit. `NoFuel` is the explicit out-of-fuel result of the few loops that are not structurally recursive;
  a theorem shows that it does not occur.
* Slices are lists. A slice that is written in place is returned as a new list. Where sharing matters (layer arrays of the
  tree, drawing an image onto itself) there is a heap or one shared pixel buffer.
* Maps are association lists with "last write wins" update; where the order of a `range` over a map could matter, the
  theorem quantifies over all orders.
* The decoder is a value of a free monad (`MReader`) whose nodes are the reader operations: `io.ReadFull`, one `Read`,
  `discard`, the zlib reader, and the user callback. Interpreters: plain reader over a byte string, seekable reader
  (`run_seek`), reader with arbitrary chunking (`run_chunks`), with or without reporting the end together with the last byte.
  Theorems about all readers are proved once for all programs by induction on the program.
* Goroutines: each worker is a list of atomic steps; theorems quantify over all interleavings (`MSched`). Channel protocols
  (`MWait`, `MLoad`) are transition systems; theorems quantify over all reachable states and all executions.
* Floats: where exact (comparison of sums of small integers) they are integers; `math.Sqrt` on 8 bit values and the luminosity
  code of the 16 bit path are computed with the executable IEEE model of the standard library (`SpecFloat`); `math.Pow` is an
  arbitrary function (section variable).

## Files

| model | code | specification | theorems |
|-------|------|---------------|----------|
| MUtil | util.go, itoa, UTF-16 names | SUtil, SUtf16 (any code units) | TUtil: C16, C29; TUtf16: C16 |
| MReader | reader operations, readers | | TDecode, TChunk |
| MConfig | psd.go DecodeConfig, imageres.go | SConfig | TConfig: C01-C04 |
| MCompress | compress*.go, PackBits, delta, worker split | SCompress | TCompress: C05-C10 |
| MCompressJs | compress_js.go, compress.inc.js, compress_wasm_js.go | SCompress | TCompressJs: C61 |
| MLayer | layer.go, layer tree, masks, additional info, blend data | STree, SLayer, SRecord, SSkip, SChunk | TTree, TRecord, TSkip, TDecode, TChunk: C11-C15, C17-C24, C27, C28 |
| MApi | psd.go Decode, DecodeConfig and Image registration | SLayer, SGuard (the decoder with checks), STail | TDecode: C17, C18, C20-C24, C26; TGuard: C84; TTail: C85 |
| MPicker | picker.go | SPicker | TPicker: C25 |
| MColor | color/ | SColor, SConvert | TColor: C25, C30, C31; TConvert: C67 |
| MRect, MSched | image.Rectangle, worker split, interleavings | | TDraw, TTile: C44 |
| MBlend | blend/ formulas for 8 and 16 bit and fallback | SBlend | TBlend: C35-C40, C59 |
| MPorter | blend/ Porter-Duff operators | SPorter | TPorter: C41, C42 |
| MDraw | blend/ clip, loops, parallel rows | SDraw | TDraw: C32-C34 |
| MTile | composite/ tile building, tile rows | STile | TTile: C43, C44 |
| MWait | channel protocols | | TWait: C52, C53 |
| MThumb | composite/ thumbnails, trim, transformRect | SThumb | TThumb: C54-C56 |
| MLTree | composite/ layer arrays on a heap, clipping groups, Clone | SLTree | TLTree: C45-C47 |
| MRender, MRenderAll | composite/renderer.go, draw.go: one tile; all tiles, workers, abort | SRender, SRenderAll | TRender: C48-C51, C57 |
| MRenderLate | sessions: changes at any time, announced later | SRenderLate | TLate: C48 |
| MRenderPx, MRenderStrict | the same on pixels; with panics of pixel operations | SRenderStrict | TRenderPx: witnesses for C48, C57 |
| MLoad | composite/layerimage.go, tree.go: concurrent loading | SLoad | TLoad: C58, C60 |
| MTileRender | composite/layerimage.go Render, Transform by the identity; layer.go Tree.Transform | STileRender | TTileRender: C62, C63 |
| MPipe | composite/layer.go New (options, root), composite/builder.go buildLayer without names, reverse, registerClippingGroup; joins MApi, MLoad and MRenderAll | SPipe, SClip, SSharp, SGlass | TPipe: C64, C65; TSharp: C68, C69; TGlass: C69, C70; TClip: C45 |
| (MBlend, MPipe) | one layer over a picture | SOver | TOver: C71, C72 |
| (MBlend) | 16 bit paths against the formulas | SWide, SHsl | TWide: C74 (proofs about float64 as rational numbers: PFloatQ, PHsl16) |
| (MBlend) | blend/util.go setLum8, clipColor8, setSat against the formulas | SHsl8 | THsl8: C86 (proofs: PHsl8; also used by POver for C71 and C72) |
| (MPipe) | error of the picture of a stack of layers | SStack | TStack: C87 (PStack1: one layer, over Q; PStack2: stacks and files) |
| (MPipe) | alpha of the picture of a file | SCover | TCover: C88 (PCover: alpha of the operators, induction over the pictures of SGlass) |
| (MPipe) | files without invisible layers, and with layers in another order | STidy | TTidy: C89 (PTidy: groups, what touches a tile, induction over the pictures of SGlass) |
| (MPipe) | files in which the content of a pass-through folder takes its place | SDissolve | TDissolve: C90 (PDissolve: the pictures of SGlass are determined, what does not touch a tile changes nothing, other opacities) |
| (MPipe) | files whose layers show the same | SLook | TLook: C91 (PLook: the derivation of a picture carried over to the other tree) |
| (MPipe) | files that differ below an opaque layer | SBelow | TBelow: C92 (PBelow: normal replaces, then the pictures are determined) |
| (MPipe) | grey layers | SGrey | TGrey: C93 (PGrey: every operator takes grey pixels to grey pixels) |
| (MPipe) | files with the same levels of one colour | SChannel | TChannel: C94 (PChannel: a simulation that follows one colour and alpha) |
| (MPipe) | layers on top that darken or lighten | STone | TTone: C95 (PTone) |
| (MPipe) | files without a neutral layer | SNeutral | TNeutral: C96 (PNeutral) |
| (MPipe) | the brightness of files | SBright | TBright: C97 (PBright) |
| (MLoadBy) | files with moved layers of other colours | STint | TTint, TTintShow: C98 (PTint1, 4, 5) |
| (MPipe) | files with layers of one colour | SOne | TOne: C99 (POne) |
| MScale | layerimage.go: makeGammaTable, createImage(Gamma), restoreGamma, newScaledTiledImage/Mask, Transform by any matrix | SScale | TScale: C75; TNewGamma: C75_new_partial (PNewGamma) |
| MThumbs | thumbnail.go: Thumbnail, Thumbnails, the pixels of ThumbnailSheet | SThumbs | TThumbs: C76 |
| MNames | builder.go:20-57, 89-118: names, attributes and Rect of the tree; layer.go:206-245 | SNames, SFrame | TNames: C77, TFrame: C78 |
| MExport | psdexporter/main.go; blendmode.go String | SExport | TExport: C79, C80 |
| MMove | composite/layer.go Tree.Transform with any matrix | SMove | TMove: C81 |
| MLoadBy | composite/layer.go New and the loader with any matrix and gamma | SMove, SShift | TMoveLoad: C82, TShift: C83 |
| (MPipe, MRenderLate) | a loaded tree that is changed | SLive | TLive: C73 |
| MConfig, MApi, MPicker (no new code) | psd.go Decode joined to picker.go and color/: the merged image from bytes to colours | SMerged | TMerged: C66 |

## Trusted base

* The Coq kernel and `coqc` 8.16.1 (vm_compute included).
* Axioms: none. `Print Assumptions` under each theorem says "Closed under the global context".
* The transcription from Go to Coq, made by hand, with citations. Simplifications are in the comments of the definitions.
* Library behaviour assumed: `io.ReadFull`, `io.CopyN`, `Seek`, `bufio.Reader.Discard`, `image.Rectangle` methods,
  `utf16.Decode`, `string([]rune)`, `append` (a new array when the capacity is exceeded; the growth is arbitrary), maps,
  channels (unbuffered: sender and receiver step together), `select`, `sync.WaitGroup`, `sync.Pool`, as documented in the model.
* In the GopherJS build slices of bytes are typed arrays that share memory, sizes fit 32 bits.
* zlib decompression is an oracle: an arbitrary function of the bytes available to it. For chunked readers (C19) its result
  is taken not to depend on the chunks.
* The package `downscale` (C76) is an arbitrary function from the bounds of the thumbnail and the image to pixels or an error.
* Text encodings and the detector of New's options (C77) are arbitrary functions; a nil encoding is `None`.
* os.Create and png.Encode (C79) are arbitrary functions of the name and the image; printing succeeds.
* `draw.BiLinear.Transform` (C75) is an arbitrary function that is assumed to make images of the right size and to copy opaque
  and transparent pixels when it translates by whole pixels (`good_library` in SScale; `exactLib` meets it); for C81, C82 and C83 also that
  it makes bytes of bytes (`typed` in SMove; `exactLib_typed`).
* `math.Pow` is an arbitrary function; for C75_tables and C75_gamma_refuted it is assumed to return x, x*x and sqrt x (each rounded
  once) for the exponents 1, 2 and 1/2 (`go_pow`; `somePow` meets it). `uint32(NaN)` is 0, as on amd64 and arm64 (Go leaves it to the implementation).
* Rounding in transformRect is an arbitrary monotone function (C56).
* Concurrency: drawing one pixel is one atomic step (C33, C34: the witness needs less, the positive theorems are about
  disjoint pixels); the cells of tiles likewise. Rectangles are stored atomically in the loader (C60 is refuted even so). Panics
  of workers other than those of the modelled steps (out of memory) do not occur.
* Renderer: buffers of the pool are zero when they are handed out (putBuffer clears them); attributes are not changed while one
  tile is drawn (C48_late_partial: they may change between the tiles of one render); the requests that `SetDirty...` defers during a render are executed after it; the tiles of different points do not
  share state except the maps, whose mutexes are taken to work. C48_history_partial and C49 are about changes that are announced, one by one or several together, before the next render; C48_late_partial has no such condition.
* Loader: MLoad transforms by the identity, MLoadBy by any matrix with the resampling library as a parameter; no cancellation (cancellation is C53).

Not modelled: memory exhaustion, values of `math.Pow` except for the exponents 1, 2 and 1/2, the inside of the downscale and
BiLinear libraries, the inside of text encodings other than UTF-16 for layer names, assembly (`normal_amd64.s`, unused: its init is commented
out), the tables divTable and rgbaToNRGBATable (no code uses them), error texts, the code generators in blend/ (their output is modelled).

## Plan and result per property

| id | what is modelled | how | result |
|----|------------------|-----|--------|
| C01 | header + resource parser as reader program | no `Crash` node reachable (structural predicate on programs), fuel bounded by input length | proved |
| C02 | header checks | inversion of the run; completeness by computation of the run on any 26 byte header | proved |
| C03, C04 | resource loop | induction over the list of blocks, encoder as spec | proved |
| C05, C06 | PackBits per line, literal index arithmetic | induction over runs; relational spec of the format; fuel bound by line length | proved |
| C07, C08 | worker split | workers write disjoint slices; equality with the sequential fold | C07 proved; C08 refuted at depth 16 |
| C09, C10 | decodeDelta | induction over rows and samples with modular arithmetic | C09 proved; C10 refuted at depth 8 |
| C11-C13 | buildTree | stack invariant, induction over forests | C11, C12 proved; C13 refuted (unclosed divider), the rest characterised |
| C14 | additional info parser | induction over blocks, encoder as spec | proved |
| C15 | layer records | encoder as spec, composition of parse lemmas | proved |
| C16 | UTF-16 decode (also of lone surrogates), UTF-8 encode | arithmetic on scalar values; induction on code units | proved |
| C17, C18 | byte accounting | invariant "count = consumption" for all programs of the decoder | proved |
| C19 | chunked interpreter | simulation by induction on programs, for all accepted files | refuted for rejected files, for early ends and for padding with an `8`; proved for accepted files |
| C20 | seekable interpreter | simulation | refuted (negative discard); proved for files a plain reader accepts |
| C21, C22 | options, callback events | relational induction over the program structure | proved |
| C23 | layer sections | NoDup for one section | refuted (two `Layr` blocks); proved for one section |
| C24 | panics | witnesses, and panic freedom of the parts that have it | refuted (eleven files, three more in C84); termination proved; exactly which files panic is C84 |
| C25 | pickers | index arithmetic | proved |
| C26 | hooks | from the run of the common prefix | proved |
| C27, C28 | mask record | encoder as spec | C27 proved; C28 refuted |
| C29 | itoa | induction on decimal digits | proved |
| C30, C31 | colour types | arithmetic bounds | C30 proved; C31 refuted for four models, the rest proved |
| C32 | clip | arithmetic on rectangles | proved |
| C33, C34 | row/pixel loops over flat pixel buffers, worker split | loop invariant, disjointness; memmove argument | C33 proved; C34 refuted for two workers, proved otherwise |
| C35-C39 | per pixel formulas of all modes | exhaustive evaluation over finite channel pairs plus algebra for alpha | C35, C37 proved; C36, C38, C39 refuted with the exact exceptions |
| C40 | setLum8/setSat/clipColor8 | algebra | proved |
| C41, C42 | Porter-Duff | algebra on 16 bit values | C41 proved; C42 refuted, loss bounded |
| C43, C44 | tiling and partitions | arithmetic | C43 refuted for negative coordinates, proved otherwise; C44 proved |
| C45 | registerClippingGroup | induction on sibling lists | proved |
| C46, C47 | heap of layer arrays with append reallocation | induction | C46 proved; C47 refuted for New |
| C48-C51 | renderer state: caches per layer and tile, dirty marking, abort | cache validity invariant over histories with abstract pixel algebra | C48 refuted for three reasons, proved without them, also for late announcements; C49-C51 proved |
| C52, C53 | transition systems | invariants, decreasing measure | C52 proved; C53 refuted (deadlock) |
| C54-C56 | thumbnail arithmetic, transformRect over rationals | arithmetic | C54 proved; C55, C56 refuted, the rest proved |
| C57 | blend mode table, drawing of tiles | structural induction; strict pixel operations | refuted (dissolve); proved for known modes |
| C58, C60 | concurrent loader | all schedules of a transition system | refuted (races); proved parts: what is loaded, hidden masks |
| C59 | 16 bit blend paths, float64 luminosity code | algebra; mantissa bound of every rounded float makes the clamp exact | proved |
| C61 | the JavaScript loop with `undefined`; the wasm build is the sequential decoder | lockstep simulation | refuted (no-op byte); proved without it |
| C62 | Render of tile maps: workers, copies and clears as stores into cells | each cell determines its value, so no order matters | refuted for faint pixels; masks proved exactly, images up to one level |
| C63 | Transform by the identity for images, masks and the map of a tree | C62 and the tiling lemmas of C43 for aligned rectangles | refuted for faint pixels (drift); proved up to one level |
| C64 | Decode with the options of New, the loader, buildLayer, the renderer on real pixels | round trip of C15, images of C60 and tiles of C43 give the pixels of each layer; induction over the tree; C48 for the caches | proved |
| C65 | as C64, for depth 16 | witness computed through the whole model | refuted |
| C66 | Decode, makePicker, Palette, hasAlphaID0, pickers | encoder of whole files in SMerged; parsing lemmas of C03, C07 and C15 composed with the pickers of C25 | proved |
| C67 | all Model functions of color/color.go | integer bounds of each formula; floating point operations are parameters | proved for grey, opaque and transparent; rest refuted |
| C68 | as C64, with masks, clipping groups and opacity 0 | the value of each pixel after each drawing operation, by induction over the tree; the tiles of masks (C43, C60) give the black and white values | partial (hypotheses in SSharp.v); groups not blended as groups refuted |
| C69 | two executions of the model of C68 | both show the painting of C68, which does not mention tiles; or the composition of C70, which does not depend on the square for trees without pass-through folders and white masks | proved for these files; refuted for layers clipped to pass-through folders, masked pass-through folders and masks with white default |
| C70 | the model of C68 | the composition of SGlass at one point, which mentions the tile only for pass-through folders and white masks; first render of a tile without assumptions on stability (PGlass), pixels of a tile (PGlass1), pictures and masks (PGlass2), the tree (PGlass3), the file (PGlass4) | proved |
| C71 | blend8 (MBlend), specification SOver | weights of the formula are rounded down together; error of the quotient | proved |
| C72 | as C70 | C70, and C71 for the topmost layer; all intermediate pixels are bytes | proved |
| C73 | as C68, with the sessions of MRenderLate | the loader does not read the changed attributes, so the changed tree is the tree of the changed file; C48 for late announcements, C68 for the final picture | proved |
| C74 | blendW, blendF, chan W16 (MBlend), specification SWide | rational algebra per mode; the float64 square root is the integer square root because 65535 is square free; float64 luminosity of integers is exact; Hue, Saturation, Color, Luminosity: each float64 operation is the exact one times 1+d, |d| <= 2^-52, so the result is the W3C formula rounded down; weights as in C71 | proved |
| C75 | scaled tile images with the library as oracle, gamma tables | the tiles of a moved image via C43, rectangles via C56; tables by a sweep over 256 values with exact float64 | without gamma proved for opaque and transparent pixels; refuted with gamma 2 and for masks with white default |
| C76 | Thumbnail with any buffer, workers of Thumbnails, drawing of the sheet; downscale as oracle | Render overwrites the whole buffer (C62), trimming finds the box of visible pixels, which exists because the tile builder stores no blank tile; stores of the workers by key; disjoint cells (C54) | proved but for the last row and column; refuted for layers of one row or column |
| C77 | the builder over the tree that Decode reads and the layers that the loader has copied; detector and decoders as arbitrary functions | induction over the tree; the encoding found first is the one found for all names joined | proved; a nil encoding panics (part of the theorem) |
| C78 | the union of the rectangles in the builder, cut by the canvas | every tile of a picture lies in the rectangle the loader stored or in that of the file; layers that are not visible at a point lay nothing on nothing | proved |
| C79 | processLayer and main over the decoded tree; os.Create and png.Encode as arbitrary functions | the files are a run over the list of pictures with their paths, which are distinct; numerals of at least three digits are read back uniquely | proved; layers without pixels stop the export (C79_empty_refuted) |
| C80 | the switch of String | the names in the table are distinct and none is an unknown one | proved |
| C81 | Tree.Transform by a translation on the images of a loaded file, then Render of the new tree | C75 per layer and a moved mask; the value of a tree of layers depends on the cell of each layer only, hence the same value at the moved place; C70 for the file | proved |
| C82 | the loader with a translation (all schedules), the tree built of its records, Render | the invariant of the loader for any matrix; each image is the moved one of a plain load and each layer has the same attributes, if its mask keeps a tile; then as C81. Refuted without that condition: a mask moved to negative coordinates is lost | partial (full statement false) |
| C83 | the loader with a translation against the loader of the file with moved layers (all schedules), the trees of both, Render | each image built through the scaling library has the tiles of the image built at the new place; a simulation between the two loaders in both directions, up to the masks that are off; the renderer depends only on the tiles it finds. Refuted for masks that let through what they do not cover: the moved mask hides a row and a column more | proved |
| C84 | SGuard: the decoder of MLayer with an explicit check before each operation that can panic | a relation between programs, `hard`: the same reads and events, and where one panics the other fails with a check; proved function by function with the sizes and byte ranges as postconditions, then carried through the interpreters of all readers | proved |
| C85 | MLayer, MReader on a file and on the file with data appended or cut off | order of programs by fuel; a program that succeeds and leaves something unread does the same with more data (induction over programs); the length of the layer section is determined by its length field; full reads of the merged image need all of it; for seekable readers a predicate that follows the position through all programs | proved; three witnesses show that the conditions are needed |
| C86 | MBlend.mix with 8 bits against SHsl8.mixed8 (exact rational numbers) | the value of setLum8 in closed form; the brightness is the floor of the exact one; four inequalities over Q (the code and the formula clip, or only the formula does, at the bottom or at the top; the code never clips alone); the weights bound the distance of a channel from the brightness | proved; a witness shows that the bound of one level fails for clipped colours |
| C87 | the pipeline of C70 against exact rational compositing (SStack) | the formulas of the gentle modes change no faster than the backdrop and at most twice as fast as the source; error of one layer and of its mask over Q; induction over the layers; C70 | proved; false for hard mix (witness) |
| C88 | the pipeline of C70 against exact rational coverage (SCover) | alpha of every operator; opaque pictures stay opaque; error bound by induction over the derivations of SGlass, with what does not touch a tile bounded by induction over the coverage | proved |
| C89 | the pipeline of C70 for two files whose trees are related by leaving out invisible layers and exchanging neighbours that do not overlap (STidy) | the relation carries over to the clipping groups; it keeps what touches a tile; a picture with no pixel at a point leaves any backdrop as it is; induction over the derivations of SGlass | proved; hidden layers clipped to another one cannot be left out (C89_hidden_clip_refuted) |
| C90 | the pipeline of C70 for two files, one with an unmasked pass-through folder and one with its content (SDissolve) | the pictures of SGlass are determined (C90_determined); opaque pixels are copied unchanged; what does not touch a tile changes nothing; the derivation for the second file gives one for the first | proved, for folders in other folders in C90_nested; false over faint pixels (C90_faint_refuted) and in a pass-through folder of another opacity (C90_rounding_refuted) |
| C91 | the pipeline of C70 for two files with the same tree of layers, stored differently (SLook) | induction on the derivation of the picture; masks that are white everywhere are the identity | proved |
| C92 | the pipeline of C70 for two files that differ below an opaque layer (SBelow) | C37_normal_replaces at the layer, then the pictures are determined; induction over the folders around it (a pass-through folder around an opaque layer is drawn, and copies what is below, which is then hidden) | proved |
| C93 | the pipeline of C70 for a file with grey pictures (SGrey) | every blending mode, Porter-Duff operator and mask keeps grey pixels grey; induction over the picture | proved |
| C94 | the pipeline of C70 for two files with the same levels of one colour (SChannel) | one colour and alpha of the result of every operator depend only on that colour and alpha (blending does not fail: C36); simulation by induction over the picture | proved |
| C95 | the pipeline of C70 for a file and the same with layers on top (STone) | the blend colour is on one side of the backdrop in these modes; the mean of C71 stays on that side; induction over the layers on top | proved |
| C96 | the pipeline of C70 for a file and the same without a layer (SNeutral); blend8 for the levels | the blend of a neutral colour is the backdrop, also after the copy of faint pixels; induction over the folders; the table of levels by a sweep of the one-colour functions lifted to all pixels | proved |
| C97 | the pipeline of C70 (SBright) | the weights of the blending formula have the sum they are divided by, also when rounded; a copy loses but never gains; induction over the picture semantics of C70 | proved |
| C98 | the loader with a matrix and a gamma table (MLoadBy, MScale), STint | the tiles of the moved picture with gamma are those of the recoloured picture at the new place; simulation between the runs of the two loaders as in C83; C98_picture: with C70, the pixels shown are the composition of the moved, recoloured layers | proved |
| C99 | the compositing rules (SGlass), SOne | induction over the composition: what is not transparent has the colour; a copy of a pixel (stored) loses at most one level and nothing if the pixel is opaque | proved; exact for translucent pixels refuted |

## Findings

Every `..._refuted` theorem is a finding about the code at the pinned commit. Further observations made while modelling, which
are not stated as properties:

* `New` replaces `TransformMatrix[0] == 0` and `[4] == 0` by 1, so that a rotation by 90 degrees is impossible.
* composite reads the channel data of 32 bit and bitmap files, too, as 8 bit samples (16 bits: C65).
* The tile builder inverts masks whose default colour is not 0, the renderer expects that only for 255 (C58).
