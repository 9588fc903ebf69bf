{
 "claims": [
  {
   "property": "C01",
   "status": "proved",
   "theorems": [
    "C01_decodeConfig_total",
    "C01_decodeConfig_readers"
   ],
   "note": ""
  },
  {
   "property": "C02",
   "status": "proved",
   "theorems": [
    "C02_header_sound",
    "C02_header_accepted"
   ],
   "note": ""
  },
  {
   "property": "C03",
   "status": "proved",
   "theorems": [
    "C03_config_roundtrip"
   ],
   "note": ""
  },
  {
   "property": "C04",
   "status": "proved",
   "theorems": [
    "C04_resources_exact"
   ],
   "note": ""
  },
  {
   "property": "C05",
   "status": "proved",
   "theorems": [
    "C05_packbits_decode"
   ],
   "note": ""
  },
  {
   "property": "C06",
   "status": "proved",
   "theorems": [
    "C06_packbits_safe"
   ],
   "note": ""
  },
  {
   "property": "C07",
   "status": "proved",
   "theorems": [
    "C07_packbits_workers",
    "C07_packbits_schedules",
    "C07_rle_roundtrip"
   ],
   "note": ""
  },
  {
   "property": "C08",
   "status": "partial",
   "theorems": [
    "C08_rle_cpus_refuted"
   ],
   "note": "the property is false: refuted by a 16 bit image that decodes on one processor and fails on two; the part that holds (full lines of width bytes, that is depth 8 and 1) is C07"
  },
  {
   "property": "C09",
   "status": "proved",
   "theorems": [
    "C09_delta_inverse"
   ],
   "note": ""
  },
  {
   "property": "C10",
   "status": "partial",
   "theorems": [
    "C10_delta_8bit_refuted",
    "C10_delta_8bit_identity"
   ],
   "note": "the property is false: refuted at depth 8, where prediction is not undone; depth 16 and 32 are C09"
  },
  {
   "property": "C11",
   "status": "proved",
   "theorems": [
    "C11_tree_roundtrip"
   ],
   "note": ""
  },
  {
   "property": "C12",
   "status": "proved",
   "theorems": [
    "C12_tree_fails_iff",
    "C12_tree_any_records"
   ],
   "note": ""
  },
  {
   "property": "C13",
   "status": "partial",
   "theorems": [
    "C13_no_layer_dropped_refuted",
    "C13_balanced_complete",
    "C13_lost_records"
   ],
   "note": "the property is false: refuted by a layer below a divider that is never closed; the part that holds (balanced record lists lose nothing, otherwise exactly what is below the last open divider) is proved"
  },
  {
   "property": "C14",
   "status": "proved",
   "theorems": [
    "C14_additional_info"
   ],
   "note": ""
  },
  {
   "property": "C15",
   "status": "proved",
   "theorems": [
    "C15_layers_roundtrip",
    "C15_record_roundtrip"
   ],
   "note": "layer images for grey, RGB and CMYK at the depths the decoder supports; RLE at depth 8, ZIP prediction at 16 and 32 (C08, C10)"
  },
  {
   "property": "C16",
   "status": "proved",
   "theorems": [
    "C16_unicode_string",
    "C16_any_units",
    "C16_unicode_string_panics",
    "C16_layer_name"
   ],
   "note": ""
  },
  {
   "property": "C17",
   "status": "proved",
   "theorems": [
    "C17_section_exact"
   ],
   "note": ""
  },
  {
   "property": "C18",
   "status": "proved",
   "theorems": [
    "C18_decode_count"
   ],
   "note": ""
  },
  {
   "property": "C19",
   "status": "partial",
   "theorems": [
    "C19_accepted_partial",
    "C19_config",
    "C19_broken_refuted",
    "C19_eager_refuted",
    "C19_eight_refuted"
   ],
   "note": "Proved for every file that is accepted from one buffer, every splitting into non-empty reads and every number of workers: result, count, unread bytes and callbacks are the same; readers that report the end with the last byte are covered if the merged image is decoded or data follows. DecodeConfig gives the same outcome for all inputs, errors included. False otherwise: a name whose padding exceeds its record is rejected from one buffer and accepted from short reads; a file that ends with padding is rejected if the reader returns io.EOF with its last byte."
  },
  {
   "property": "C20",
   "status": "partial",
   "theorems": [
    "C20_seek_refuted",
    "C20_readers_agree",
    "C20_forward"
   ],
   "note": "the property is false: refuted by a file whose global mask block is longer than the section, which a plain reader rejects and a seekable reader accepts after seeking back; the part that holds (whatever a plain reader accepts gives the same result everywhere and never seeks back) is proved"
  },
  {
   "property": "C21",
   "status": "proved",
   "theorems": [
    "C21_skip_images",
    "C21_overrun_refuted"
   ],
   "note": "the condition (channel data ends within the layer section) is the decoder with that check; without it the property is false, C21_overrun_refuted"
  },
  {
   "property": "C22",
   "status": "proved",
   "theorems": [
    "C22_callbacks"
   ],
   "note": ""
  },
  {
   "property": "C23",
   "status": "partial",
   "theorems": [
    "C23_seqids_refuted",
    "C23_seqids_one_section"
   ],
   "note": "the property is false: refuted by a file with two layer blocks in the additional information; the part that holds (files with one non-empty layer section) is proved"
  },
  {
   "property": "C24",
   "status": "partial",
   "theorems": [
    "C24_panic_refuted",
    "C24_terminates"
   ],
   "note": "the property is false: refuted by eleven different files; the part that holds of all inputs is termination, and DecodeConfig never panics (C01). Which files panic is C84"
  },
  {
   "property": "C25",
   "status": "proved",
   "theorems": [
    "C25_pixels",
    "C25_channels",
    "C25_palette",
    "C25_in_bounds",
    "C25_merged",
    "C25_panic_refuted",
    "C25_model"
   ],
   "note": "planes of the size the decoder allocates; C25_panic_refuted records files outside that condition (indexed with 1 bit samples, layers lacking a channel) on which At panics"
  },
  {
   "property": "C26",
   "status": "proved",
   "theorems": [
    "C26_hooks_agree"
   ],
   "note": ""
  },
  {
   "property": "C27",
   "status": "proved",
   "theorems": [
    "C27_mask_roundtrip"
   ],
   "note": "real user mask rectangles without negative coordinates, the others are C28"
  },
  {
   "property": "C28",
   "status": "partial",
   "theorems": [
    "C28_real_rect_refuted",
    "C27_mask_roundtrip"
   ],
   "note": "the property is false: refuted by a mask record with negative coordinates; the part that holds (non-negative coordinates) is C27_mask_roundtrip"
  },
  {
   "property": "C29",
   "status": "proved",
   "theorems": [
    "C29_itoa_canonical"
   ],
   "note": ""
  },
  {
   "property": "C30",
   "status": "proved",
   "theorems": [
    "C30_premultiplied",
    "C30_exact",
    "C30_float"
   ],
   "note": "math.Pow is an arbitrary function; multiplication by 0xffff is modelled with IEEE rounding; uint32(NaN) is taken as 0 (amd64, arm64)"
  },
  {
   "property": "C31",
   "status": "partial",
   "theorems": [
    "C31_models_refuted",
    "C31_self",
    "C31_gray_alpha",
    "C31_gray_alpha16",
    "C31_total"
   ],
   "note": "the property is false: refuted for four models; the part that holds is stated by the other theorems"
  },
  {
   "property": "C32",
   "status": "proved",
   "theorems": [
    "C32_clip",
    "C32_accesses",
    "C32_fallback_accesses"
   ],
   "note": ""
  },
  {
   "property": "C33",
   "status": "proved",
   "theorems": [
    "C33_pixels",
    "C33_blend_modes",
    "C33_porter_duff",
    "C33_uniform",
    "C33_fallback"
   ],
   "note": "pixels are atomic actions; C33_uniform and C33_fallback state the pixelwise result for every worker count and schedule"
  },
  {
   "property": "C34",
   "status": "partial",
   "theorems": [
    "C34_parallel_refuted",
    "C34_snapshot",
    "C34_fallback_snapshot"
   ],
   "note": "the property is false: refuted with two workers; the part that holds (one processor, fewer than four rows, or a shift within the rows) is proved"
  },
  {
   "property": "C35",
   "status": "proved",
   "theorems": [
    "C35_blend_in_range"
   ],
   "note": ""
  },
  {
   "property": "C36",
   "status": "partial",
   "theorems": [
    "C36_rounded_down_refuted",
    "C36_formulas",
    "C36_exceptions_refuted"
   ],
   "note": "the property is false: refuted by Screen, which rounds up; the part that holds (C36_formulas) gives the rounding of every separable mode, with the exceptions of SoftLight, VividLight and HardMix"
  },
  {
   "property": "C37",
   "status": "proved",
   "theorems": [
    "C37_transparent_source",
    "C37_transparent_destination",
    "C37_opaque_destination",
    "C37_opaque_source",
    "C37_normal_replaces",
    "C37_opaque_over_opaque",
    "C37_neutral"
   ],
   "note": ""
  },
  {
   "property": "C38",
   "status": "partial",
   "theorems": [
    "C38_alpha_reduced_refuted",
    "C38_alpha_bound_partial"
   ],
   "note": "the property is false: refuted for every mode by a source of alpha 1; the part that holds is a bound of one level"
  },
  {
   "property": "C39",
   "status": "partial",
   "theorems": [
    "C39_add_wraps_refuted",
    "C39_add_fallback_darkens_refuted",
    "C39_add_small_partial",
    "C39_add_fallback_partial"
   ],
   "note": "the property is false: refuted by two greys whose sum wraps around; the parts that hold are C39_add_small_partial (no wrap while the sums fit) and C39_add_fallback_partial (the fallback saturates)"
  },
  {
   "property": "C40",
   "status": "proved",
   "theorems": [
    "C40_luminosity",
    "C40_saturation"
   ],
   "note": "luminosity up to one level"
  },
  {
   "property": "C41",
   "status": "proved",
   "theorems": [
    "C41_textbook",
    "C41_fallback",
    "C41_bytes",
    "C41_alpha_source",
    "C41_uniform_source",
    "C41_over_opaque",
    "C41_over_empty"
   ],
   "note": ""
  },
  {
   "property": "C42",
   "status": "partial",
   "theorems": [
    "C42_copy_refuted",
    "C42_dest_refuted",
    "C42_copy_straight_partial",
    "C42_copy_premultiplied"
   ],
   "note": "the property is false: refuted by a faint pixel that loses its colour; the part that holds (premultiplied images exactly; straight images exactly from alpha 128 on and up to one level below) is proved"
  },
  {
   "property": "C43",
   "status": "partial",
   "theorems": [
    "C43_image_partial",
    "C43_mask_partial",
    "C43_negative_refuted"
   ],
   "note": "All rectangles, tile sizes, strides, worker counts and schedules: pixels at non-negative coordinates are kept exactly, nothing is invented anywhere. The full statement is false for layers with a negative origin: Go division truncates towards zero, so columns and rows left of the first tile are lost (refuted by a witness)."
  },
  {
   "property": "C44",
   "status": "proved",
   "theorems": [
    "C44_drawing",
    "C44_tiles",
    "C44_indices",
    "C07_packbits_workers",
    "C07_packbits_schedules"
   ],
   "note": "Rows of drawing, tile rows (tile building and rendering) and layer indices are handed out completely, in order, without overlap; the RLE split is part of the PackBits worker theorems."
  },
  {
   "property": "C45",
   "status": "proved",
   "theorems": [
    "C45_clipping_groups",
    "C45_clip",
    "C45_no_clip",
    "C45_clipped_by",
    "C45_grouped"
   ],
   "note": "all layer trees: every layer is attached to the nearest non-clipping layer below, and a base lists exactly its layers from bottom to top; C45_grouped: the lists of layers that the renderer draws (for C64)"
  },
  {
   "property": "C46",
   "status": "proved",
   "theorems": [
    "C46_clone"
   ],
   "note": "trees whose layers are distinct and whose clipping references stay inside the tree (C46_hypotheses shows a case)"
  },
  {
   "property": "C47",
   "status": "partial",
   "theorems": [
    "C47_top_level_refuted",
    "C47_nested_refuted",
    "C47_parents_partial"
   ],
   "note": "The full statement is false: top-level layers of every file have no Parent, and nested Parent pointers point to copies left behind when the slice grows. Proved: the tree has the right shape and the copy a nested Parent points to has the same attributes and children."
  },
  {
   "property": "C48",
   "status": "partial",
   "theorems": [
    "C48_no_parent_refuted",
    "C48_pass_through_refuted",
    "C48_lossy_copy_refuted",
    "C48_history_partial",
    "C48_exact_copy_partial",
    "C48_late_partial",
    "C48_pending_no_panic_partial",
    "C48_late_exact_copy_partial"
   ],
   "note": "The full statement is false, for three reasons, each with a witness on real pixels: top-level layers of New have no Parent; changing a pass-through folder to another mode leaves nested pass-through caches; the copy into a cache is lossy for faint pixels. Proved: for cloned trees, any history of changes, one or several announced together (none of the bad kind), renders and aborts, if the cached buffers are unharmed by copying, Render shows the pixels of the tree drawn without caches. C48_late_partial proves it also for changes at any time (between renders or between the tiles of one), announced at any later time and in any order with renders in between: once all are announced, Render is right."
  },
  {
   "property": "C49",
   "status": "proved",
   "theorems": [
    "C49_diff"
   ],
   "note": "For all trees, changes, schedules and abort points."
  },
  {
   "property": "C50",
   "status": "proved",
   "theorems": [
    "C50_caches",
    "C50_next_render"
   ],
   "note": "The caches at every point are as before the aborted render, whatever rows the workers had drawn."
  },
  {
   "property": "C51",
   "status": "proved",
   "theorems": [
    "C51_every_tile_once",
    "C51_schedule"
   ],
   "note": "Steps of a tile may be divided and interleaved arbitrarily with those of other tiles."
  },
  {
   "property": "C52",
   "status": "proved",
   "theorems": [
    "C52_wait_safe",
    "C52_wait_live",
    "C52_wait_terminates"
   ],
   "note": ""
  },
  {
   "property": "C53",
   "status": "partial",
   "theorems": [
    "C53_cancel_refuted",
    "C53_return_partial",
    "C53_terminates"
   ],
   "note": "The full statement is false: after a cancellation the workers can all return while the decoder still waits to hand over a layer (refuted by a deadlocked execution). Proved: all executions are finite and every other end state is a return with all workers ended."
  },
  {
   "property": "C54",
   "status": "proved",
   "theorems": [
    "C54_sheet",
    "C54_thumbnail_size",
    "C54_size_zero_refuted"
   ],
   "note": "All positive sizes and thumbnail counts below 2^31, any order of the map. Size 0 panics (C54_size_zero_refuted)."
  },
  {
   "property": "C55",
   "status": "partial",
   "theorems": [
    "C55_trim_refuted",
    "C55_trim_partial"
   ],
   "note": "The full statement is false: the inclusive maximum is used as exclusive bound, so the last visible row and column are lost (refuted by witnesses; a transparent image panics). Everything else is kept (proved for all images)."
  },
  {
   "property": "C56",
   "status": "partial",
   "theorems": [
    "C56_covers",
    "C56_identity_grows",
    "C56_identity_refuted"
   ],
   "note": "Covering is proved for all rectangles, matrices and monotone roundings; keeping the rectangle under the identity is false: one row and one column are added for every rectangle."
  },
  {
   "property": "C57",
   "status": "partial",
   "theorems": [
    "C57_dissolve_refuted",
    "C57_known_modes_partial",
    "C57_pixels_partial",
    "C57_strict_operations"
   ],
   "note": "The full statement is false: a layer with the mode dissolve (or an unknown one) makes drawLayer call a method of a nil interface. Proved: no panic if every mode is in the table or pass-through, with the pixel operations on tiles of bytes made strict (a panic for one pixel or a difference in size ends the render)."
  },
  {
   "property": "C58",
   "status": "partial",
   "theorems": [
    "C58_black_refuted",
    "C58_default_colour_refuted",
    "C58_hidden_partial"
   ],
   "note": "The full statement is false: a black mask with default colour 0 has no tiles, and if the worker is ready before the tree is built the mask counts as disabled and the layer is shown; for default colours other than 0 and 255 a black mask never hides. Proved: for all schedules a mask with default colour 0 or 255 that differs somewhere from its default colour hides every pixel where it is 0 (coordinates not negative, layers other than pass-through folders)."
  },
  {
   "property": "C59",
   "status": "proved",
   "theorems": [
    "C59_wide_in_range",
    "C59_fallback_in_range",
    "C59_wide_transparent_source",
    "C59_wide_onto_empty",
    "C59_wide_normal_replaces"
   ],
   "note": "uint32(NaN) is taken as 0"
  },
  {
   "property": "C60",
   "status": "partial",
   "theorems": [
    "C60_pixels_refuted",
    "C60_tree_refuted",
    "C60_images_partial",
    "C60_layers_partial"
   ],
   "note": "The full statement is false: the goroutines change the rectangles of layers while the decoder copies them, so that the same file can show other pixels and have another Tree.Rect. Proved: the images and masks are the same in all schedules and for all numbers of goroutines, and the layers differ at most in the two rectangles, which are those of the file or of the tiles."
  },
  {
   "property": "C61",
   "status": "partial",
   "theorems": [
    "C61_noop_refuted",
    "C08_rle_cpus_refuted",
    "C61_builds_agree_partial",
    "C61_js_wellformed_partial",
    "C61_js_any_partial",
    "C61_js_total"
   ],
   "note": "The full statement is false: the GopherJS build does not count the no-op byte 128 and rejects valid lines that contain it; at depth 16 the ordinary build on two processors rejects what the wasm build decodes. Proved: lines of the expected width without no-op bytes are decoded alike by all builds, and GopherJS agrees with the sequential decoder on all data, broken or not, without the byte 128."
  },
  {
   "property": "C62",
   "status": "partial",
   "theorems": [
    "C62_image_partial",
    "C62_mask",
    "C62_any_rect_partial",
    "C62_built",
    "C62_built_mask",
    "C62_faint_refuted"
   ],
   "note": "The full statement is false for pixels with alpha below 128, which lose up to one level of colour (C42). Proved for all schedules and former contents: no panic, masks exactly, images with equal alpha, colours within one level and exactly from alpha 128 on; the tile builder makes maps that satisfy the hypotheses."
  },
  {
   "property": "C63",
   "status": "partial",
   "theorems": [
    "C63_identity_partial",
    "C63_total",
    "C63_drift_refuted"
   ],
   "note": "The full statement is false for faint pixels: 127 identity transformations turn grey 127 with alpha 1 black (Tree.Rect also grows by one, C56). Proved: the same layers have images, masks are kept exactly, alpha is kept, colours within one level and exactly from alpha 128 on, for all schedules, map orders and numbers of goroutines, without panics."
  },
  {
   "property": "C64",
   "status": "proved",
   "theorems": [
    "C64_painted",
    "C64_topmost"
   ],
   "note": "For all such files, from the bytes to the pixels: Decode with the options of New, every execution of the loader, the tree with its clipping groups, every Render of a new renderer with any number of workers; also that such executions exist and that the painting is unique. The colours of two opaque pixels are those of C36 to C40; the names of the layers are not part of the tree."
  },
  {
   "property": "C65",
   "status": "partial",
   "theorems": [
    "C65_deep_refuted"
   ],
   "note": "The statement is false: New accepts the file, but takes the planes of 16 bits for planes of bytes, so that the second pixel shows the low byte of the first one. (C64 is the corresponding positive statement for 8 bits.)"
  },
  {
   "property": "C66",
   "status": "proved",
   "theorems": [
    "C66_merged",
    "C66_hooks"
   ],
   "note": "From the bytes to the pixels, for files with raw or PackBits image data (PackBits at depths 1 and 8, see C08 for the others); ZIP is not used for merged images. Indexed files have 8 bits and a table of 768 bytes."
  },
  {
   "property": "C67",
   "status": "partial",
   "theorems": [
    "C67_gray1",
    "C67_gray16",
    "C67_gray8",
    "C67_cmyk8_partial",
    "C67_cmyk16_partial",
    "C67_float_partial",
    "C67_clear",
    "C67_refuted"
   ],
   "note": "False for the CMYK models (black becomes white at 16 bits, half transparent red almost black) and for half transparent colours in the floating point models, which divide by alpha after the gamma correction. Proved: grey models of 1, 8 and 16 bits for all colours, CMYK and floating point models for opaque colours, all models with alpha but NCMYKA (which panics, C31) for transparent ones."
  },
  {
   "property": "C68",
   "status": "partial",
   "theorems": [
    "C68_painted_partial",
    "C68_open_groups_refuted"
   ],
   "note": "From the bytes to the pixels, for all such files whose masks that are on have data, no density or feather and do not hide everything (C60), in which nothing is clipped to a pass-through folder (C69) and \"blend clipped layers as group\" is on. Where it is off, the statement is false: clipped layers are not drawn. Partial transparency is not part of the statement: faint pixels drift (C62, C63)."
  },
  {
   "property": "C69",
   "status": "partial",
   "theorems": [
    "C69_tile_size_partial",
    "C69_glass_partial",
    "C69_through_refuted",
    "C69_masked_folder_refuted",
    "C69_white_mask_refuted"
   ],
   "note": "Proved for the files of C68_painted_partial, and for the files of C70 (any transparency) without pass-through folders and without masks whose default colour is white. False otherwise, with witnesses: layers clipped to a pass-through folder cover every pixel of a tile in which the folder draws anything; a pass-through folder with a mask lays a half transparent picture below itself in every such tile (alpha 128 or 178); a mask whose default colour is white changes faint pixels in the tiles in which it is not all white."
  },
  {
   "property": "C70",
   "status": "proved",
   "theorems": [
    "C70_composited"
   ],
   "note": "From the bytes to the pixels; that the pixel exists and is unique is part of the theorem. The blend modes and operators are those of C36 to C42; pass-through folders and masks with the default colour white take notice of the tile, as C69 refutes the contrary."
  },
  {
   "property": "C71",
   "status": "proved",
   "theorems": [
    "C71_compositing"
   ],
   "note": "All 27 modes of the 8 bit path that NRGBA images take. The documented colour is that of C36 (with its listed exceptions) and C40."
  },
  {
   "property": "C72",
   "status": "proved",
   "theorems": [
    "C72_top_layer"
   ],
   "note": "From the bytes to the pixels. The alpha of at least 128 excludes pixels that lose a level by copying (C62); for a result fainter than that the theorem says which copies are shown."
  },
  {
   "property": "C73",
   "status": "proved",
   "theorems": [
    "C73_live_picture"
   ],
   "note": "For the files of C68_painted_partial; every tree in between must be that of such a file, and a pass-through folder that contains pass-through folders is not switched to another mode (C48). The trees have right Parent links, as Clone makes them (C46); trees of New have not (C47)."
  },
  {
   "property": "C74",
   "status": "proved",
   "theorems": [
    "C74_formulas",
    "C74_mixing",
    "C74_brightness",
    "C74_wide",
    "C74_fallback",
    "C74_exceptions_refuted"
   ],
   "note": "The exceptions of the statement are shown to be real by C74_exceptions_refuted. Hue, Saturation, Color and Luminosity are the W3C formulas rounded down (float64 arithmetic is modelled exactly). Add is excluded (C39)."
  },
  {
   "property": "C75",
   "status": "partial",
   "theorems": [
    "C75_layer_partial",
    "C75_transform_partial",
    "C75_gamma",
    "C75_tables",
    "C75_assumptions",
    "C75_gamma_refuted",
    "C75_new_partial",
    "C75_mask_partial",
    "C75_white_mask_refuted"
   ],
   "note": "The library draw.BiLinear is assumed to copy whole pixels. False in general: with gamma 2 or 1/2 every colour from 1 to 254 becomes one level darker (C75_gamma_refuted), and a mask with the default colour white hides one more row and column (C75_white_mask_refuted). Tiles at negative coordinates lose pixels (C43). Partly transparent pixels are up to the library."
  },
  {
   "property": "C76",
   "status": "partial",
   "theorems": [
    "C76_thumbnail_partial",
    "C76_line_refuted",
    "C76_thumbnails",
    "C76_all_layers",
    "C76_loaded",
    "C76_transformed",
    "C76_sheet"
   ],
   "note": "The package downscale is an arbitrary function. False in general: the last visible row and column are cut off (C55), so that a layer whose visible pixels lie in one row or column has no thumbnail (C76_line_refuted)."
  },
  {
   "property": "C77",
   "status": "proved",
   "theorems": [
    "C77_presented",
    "C77_one_name"
   ],
   "note": "Encodings and detectors are arbitrary functions. A detector that returns nil makes New panic if a name has to be decoded; that is part of the theorem."
  },
  {
   "property": "C78",
   "status": "proved",
   "theorems": [
    "C78_frame"
   ],
   "note": "Which rectangle of the tiles or the file is used depends on the schedule (C60_tree_refuted); the theorem holds for each of them."
  },
  {
   "property": "C79",
   "status": "proved",
   "theorems": [
    "C79_export",
    "C79_names",
    "C79_empty_refuted"
   ],
   "note": "os.Create and png.Encode are arbitrary functions. C79_empty_refuted: png.Encode refuses images without pixels, so that a layer without pixels keeps the layers after it from being exported."
  },
  {
   "property": "C80",
   "status": "proved",
   "theorems": [
    "C80_names"
   ],
   "note": ""
  },
  {
   "property": "C81",
   "status": "proved",
   "theorems": [
    "C81_moved"
   ],
   "note": "Missing from a more general statement: partly transparent pixels (what the library makes of them is unknown), pass-through folders and white masks (the picture depends on the tiles, C69), negative coordinates (C43)."
  },
  {
   "property": "C82",
   "status": "partial",
   "theorems": [
    "C82_moved_partial",
    "C82_mask_lost_refuted"
   ],
   "note": "Proved if each mask that is on lets something through at a point that has no negative coordinate before and after the move; without it the statement is false (C82_mask_lost_refuted): New makes no tiles for a mask that is moved to negative coordinates and then takes the layer for one without a mask, so that hidden pixels are shown. Transform after New keeps the mask (C81)."
  },
  {
   "property": "C83",
   "status": "proved",
   "theorems": [
    "C83_moved_file",
    "C83_white_mask_refuted"
   ],
   "note": "Masks in use must hide what they do not cover. For masks that let it through the claim is false (C83_white_mask_refuted): the rectangle that New makes for a moved mask is one pixel wider and higher than the mask, and the mask hides the pixels there."
  },
  {
   "property": "C84",
   "status": "proved",
   "theorems": [
    "C84_checks",
    "C84_checks_seek",
    "C84_checks_chunks",
    "C84_checks_image",
    "C84_checks_image_config",
    "C84_causes"
   ],
   "note": "Memory exhaustion below the limit of make is not modelled, so a file that asks for more memory than there is counts as read. Two of the checks (RLE lengths beyond the address space, RLE rows beyond the buffer) need files of at least 262 KB and 4 GB; their examples are at the level of the RLE decoder."
  },
  {
   "property": "C85",
   "status": "proved",
   "theorems": [
    "C85_trailing",
    "C85_trailing_zip",
    "C85_truncated",
    "C85_truncated_seek",
    "C85_seek_position",
    "C85_truncated_seek_refuted",
    "C85_truncated_zip_refuted",
    "C85_trailing_refuted"
   ],
   "note": "The conditions are needed: a seekable reader accepts a file cut within the last section if the merged image is skipped (C85_truncated_seek_refuted); a file cut within the checksum of a zlib merged image is accepted (C85_truncated_zip_refuted); with the merged image skipped and nothing after the layers, trailing data can make an accepted file unacceptable (C85_trailing_refuted)."
  },
  {
   "property": "C86",
   "status": "proved",
   "theorems": [
    "C86_mixing",
    "C86_inside",
    "C86_black_refuted"
   ],
   "note": "The bound of one level does not hold for clipped colours (C86_black_refuted): Color of (4,4,13) over black, which the formula leaves black, gives (0,0,9), because the brightness is rounded down before the colour is clipped. C71 and C72 use the same description of these modes."
  },
  {
   "property": "C87",
   "status": "proved",
   "theorems": [
    "C87_stack",
    "C87_cost",
    "C87_determined",
    "C87_hard_mix_refuted"
   ],
   "note": "For modes whose formula can change faster than the backdrop there is no such bound: with hard mix a rounding of 1.5 levels below makes black of white (C87_hard_mix_refuted)."
  },
  {
   "property": "C88",
   "status": "proved",
   "theorems": [
    "C88_coverage",
    "C88_determined",
    "C88_bounds"
   ],
   "note": "For a pass-through folder with a mask there is no such rule: what lies below is laid below itself, so that its alpha depends on the tile size (C69_masked_folder_refuted)."
  },
  {
   "property": "C89",
   "status": "proved",
   "theorems": [
    "C89_tidied",
    "C89_hidden_clip_refuted"
   ],
   "note": "A hidden layer that is clipped to another one cannot be left out if it is the only one (C89_hidden_clip_refuted): the picture below it is copied once more, and a faint pixel loses a little of its colour."
  },
  {
   "property": "C90",
   "status": "proved",
   "theorems": [
    "C90_dissolved",
    "C90_nested",
    "C90_determined",
    "C90_faint_refuted",
    "C90_rounding_refuted"
   ],
   "note": "Where the picture below is not opaque the claim is false (C90_faint_refuted): it is copied for the folder, and a faint pixel loses a little of its colour even where the folder has none. In a pass-through folder that is not of the full opacity it is false too (C90_rounding_refuted): the products of three opacities are rounded in another order."
  },
  {
   "property": "C91",
   "status": "proved",
   "theorems": [
    "C91_looks"
   ],
   "note": "A white mask on a pass-through folder is not counted as no mask: the picture below is put under the folder once more (C69_masked_folder_refuted)."
  },
  {
   "property": "C92",
   "status": "proved",
   "theorems": [
    "C92_below",
    "C92_picture"
   ],
   "note": "Pass-through folders around the layer must be of the full opacity and without masks."
  },
  {
   "property": "C93",
   "status": "proved",
   "theorems": [
    "C93_grey"
   ],
   "note": "All the modes of the program; the picture of every layer counts, also of hidden ones."
  },
  {
   "property": "C94",
   "status": "proved",
   "theorems": [
    "C94_colours"
   ],
   "note": "The six modes that are left out mix the colours by design (Example C94_mixing)."
  },
  {
   "property": "C95",
   "status": "proved",
   "theorems": [
    "C95_tones"
   ],
   "note": "False of translucent pixels and of Darker Color and Lighter Color by their definitions (Example C95_limits)."
  },
  {
   "property": "C96",
   "status": "proved",
   "theorems": [
    "C96_neutral",
    "C96_levels",
    "C96_grey_refuted"
   ],
   "note": "50% grey is not neutral for Hard Light and Vivid Light: the program adds a level to most colours (C96_grey_refuted, a finding)."
  },
  {
   "property": "C97",
   "status": "proved",
   "theorems": [
    "C97_bright",
    "C97_grey_mask_refuted"
   ],
   "note": "Without the condition on the masks it is false: a grey layer of level 160, alpha 21 and mask value 18 is shown with the level 161 (C97_grey_mask_refuted, a finding)."
  },
  {
   "property": "C98",
   "status": "proved",
   "theorems": [
    "C98_graded_file",
    "C98_lowered",
    "C98_picture"
   ],
   "note": "draw.BiLinear is assumed to copy whole pixels, and math.Pow to be exact for the exponents 2 and 1/2 in C98_lowered. That the colours change at all is a finding (C75_gamma_refuted)."
  },
  {
   "property": "C99",
   "status": "proved",
   "theorems": [
    "C99_one_colour",
    "C99_faint_refuted"
   ],
   "note": "C99_faint_refuted: for translucent pixels the colour is not exact; a file with one layer of the grey 20 and the opacity 3 shows the grey 18. The two copies at the end of the rendering round down."
  }
 ]
}