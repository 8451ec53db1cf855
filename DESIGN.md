# Formal model of vstroebel/jpeg-encoder (0.6.1) in Coq 8.16.1

## 1. Layout

| files | contents |
|-------|----------|
| `Rust.v` | semantics of the Rust fragment: machine integers as `Z` with an explicit check (`ck_u`, `ck_s`) at every operation that can overflow — panics when `dbg = true` (overflow checks and debug assertions on), wraps when `dbg = false`; `usize` width (`ubits`, 32 or 64) as a parameter; indexing, slicing and assertions that panic; programs as interaction trees `Ret / Throw / Panic / WriteAll bytes continuation`, so `?` and failing sinks are part of the model; `exec` (a sink that never fails) and `run` (any sink) |
| `MHuffman MQuant MImage MWriter MFdct MEncoder MApi MAvx2 MFile MWrite MError MSource` | **the model**, function by function; every definition cites file and lines in /repo |
| `T81.v` | **specification**: a decoder written from ITU-T T.81 (marker parsing, table construction, unstuffing, restart intervals, sequential and progressive spectral-selection decoding, MCU geometry); shares no definition with the model |
| `S*.v` | **specifications** of the properties: `SApi` (configuration = last value set, expected frame, coefficients, segments), `SImage` (pixel formats), `STables SDct` (published tables, integer transform, quantizer), `SHuff` (valid codes, limits), `SFile SEncode` (a reference encoder from T.81), `SAvx2 SRoom SRows` (SIMD, buffer room, row order), `SSize` (bits of the entropy-coded data), `SDecide` (what a file can represent), `SRestart` (DC categories with and without restarts), `SReal` (real DCT / IDCT), `SOutcome` (possible panics), `SPreview` (the first scans of a file), `SMax` (the largest possible file), `SError` (error messages), `SUsed` (the symbols of an image), `SLocal` (the pixels a block covers), `SPixels` (pixels as a decoder shows them), `SDamage` (a decoder that goes on after damaged restart intervals), `SGen` (images that come out of a decoder), `SGrey` (grey images), `SDecoder` (decoders with bounded errors), `SSource` (image buffers with state), `SStream` (a reader of marker segments), `SMeta` (metadata), `SBright` (brightness), `SCoef` (equal coefficients), `SLuma` (luminance and chrominance), `SEffect` (configurations that ask for the same thing), `SPad` (images continued beyond their edges), `SFiner` (finer and coarser tables), `SStrip` (images encoded in strips), `SAnnexK2` (the table procedure of T.81 Annex K.2), `SMin` (the least size of a file), `SMove` (rotated and mirrored pictures, patterns), `SStable` (small changes), `SUnbroken` (files that differ in the restart interval), `SChannel` (channels and components), `SNegative` (the negative of an image), `SStart` (the start of a file), `SHeight` (the start of a file, whatever the height) |
| `P*.v`, `Spec.v` | proofs |
| `VTests.v` | the unit tests of /repo that give values (`fdct` and `rgb_to_ycbcr` against libjpeg, quantizer, tables, markers), run on the model: evidence for its fidelity, not proofs |
| `Thm*.v` | **the theorems named in MANIFEST.json**, each with a concrete case meeting its hypotheses (`Example`) |

## 2. What is modelled

Everything in `src/` that takes part in encoding:

* `huffman.rs` — all (standard tables, canonical codes, `new_optimized` = Figures K.1–K.4);
* `quantization.rs` — all (tables, quality scaling, reciprocal, `quantize`);
* `fdct.rs` — all, with every i32 operation checked;
* `image_buffer.rs` — all nine formats, colour conversion; user `ImageBuffer`s as an arbitrary effectful function (it may panic, write, append anything; `width`, `height` and `get_jpeg_color_type` return the same value at every call); `MSource.v` has the encoder once more for buffers with internal state, every call of a method made in the order of the source, with any answers (C60);
* `writer.rs` — bit buffer at word level (32/64 bit), 0xFF detection, stuffing, every segment writer, Huffman coding, DC/AC block coding;
* `marker.rs` — the byte values of the markers the encoder writes;
* `encoder.rs` — constructors, setters, getters, `add_app_segment`, `add_icc_profile`, `encode`, `encode_image`, interleaved / sequential / progressive / optimized paths, component setup, block extraction, statistics;
* `avx2.rs`, `avx2/fdct.rs`, `avx2/ycbcr.rs` — intrinsics on lists of 16-bit lanes after the Intel intrinsics guide; unaligned loads/stores outside the slice or capacity are the outcome `PUndefined`;
* the `JfifWrite` impls: for `std::io::Write` (with std's default `write_all`), `Vec<u8>`, `&mut W` (`MWrite.v`);
* `error.rs` — the error values, `Display` and `source` (`MError.v`; `IoError` and `Write` are one constructor with an opaque payload whose text is a parameter);
* `Encoder::new_file` with `std::io::BufWriter` (`MFile.v`; BufWriter itself is modelled from its documentation and source, any file system underneath).

Simplifications, each repeated at the definition:

* `Vec`, slices and arrays are lists; allocation never fails (on 32-bit targets this includes the `capacity overflow` panic of `Vec::with_capacity` for 2^31 bytes and more); `Vec::with_capacity(n)` gives capacity exactly `n` (the SIMD model takes the capacity as a parameter and the theorems supply `row_capacity`);
* generic `W: JfifWrite` is an arbitrary state machine answering `write_all`;
* panics carry a reason, not a message; unwinding (`catch_unwind`) and drop order are not modelled;
* Rust references, ownership and `Box<dyn>` have no counterpart (no aliasing in the code);
* loops whose termination is not structural carry fuel; running out gives `Panic PFuel`, and every theorem about success excludes it;
* the run-time detection `is_x86_feature_detected!` is the choice between `encode` and `encode_avx2`; both are modelled for all inputs.

Not modelled: `File::create`, the test modules, `Cargo.toml` feature selection (each feature's code is modelled separately), and the contents of `std::io::Error`.

## 3. Trusted base

* Coq 8.16.1's kernel (and `vm_compute`, used for concrete cases and finite sweeps).
* The fidelity of the model to the Rust source: it is hand-written, and the code was not run.
* The specifications: `T81.v` and `S*.v` as readings of T.81, JFIF, the ICC convention, the Intel guide, and the properties.
* Axioms: `Print Assumptions` says *Closed under the global context* for every theorem in MANIFEST.json except those about real numbers (`C17_*`, `C41_*`, `C54_*`, `C57_*` other than `C57_default_tables`, `C58_shown`, `C59_*`, and `C22_rgb_to_ycbcr`, `C22_cmyk_to_ycck`), which use the axioms of the standard library's reals and no others:
  `ClassicalDedekindReals.sig_not_dec`, `ClassicalDedekindReals.sig_forall_dec`,
  `FunctionalExtensionality.functional_extensionality_dep`.
  (`Classical_Prop.classic` and the abstract constants of `Rdefinitions` that the checker lists come with loading `Reals`.)
* No axiom, `Admitted`, functor, module type, plugin or disabled check in the development.

## 4. Properties

Columns: what is modelled / how it is proved.  Names of the theorems: MANIFEST.json.

| id | modelled | proof |
|----|----------|-------|
| C01 | whole pipeline, T.81 decoder | bit writer refines a bit string (`PBits`); prefix codes (`PHuff`); block, interval, scan, segment round trips (`PBlock PScan PScans PSegments PSos`); frame geometry (`PGeom PInter`); composition (`PFile PWhole PTop PEncode PRound`) |
| C02 | the optimizer too | every emitted symbol was counted (`POpt`), generated tables are valid (C20) |
| C03 | as C02 with restarts | condition `restart_covered` on the image (`SRestart.v`); outcome determined in all cases (`PRest`): exact bytes if covered or in a release build, PDebugAssert panic otherwise; concrete images for both sides |
| C04 | as C01 | corollary of C01/C02 |
| C05 | bit writer at word level | the emitted scan is a stuffed byte string; lemma on the 0xFF word test (only false positives) |
| C06 | scan loops | markers counted and numbered on the exact scan bytes; for every configuration (`ThmAll`) from the exact bytes of C40/C03 |
| C07 | interaction trees, any sink | every program is error-strict (`PWr`): induction over trees |
| C08 | `encode` | case analysis |
| C09, C10 | `add_app_segment`, `add_icc_profile` | induction over chunks, reassembly procedure as specification |
| C11 | `add_icc_profile` | refuted for every length in the gap; real limit proved |
| C12 | tables, DQT writer | finite sweep lifted to all qualities; custom tables by arithmetic; refutation above 255 |
| C13, C14 | `get_with_quality` | arithmetic, monotonicity of rounding |
| C15 | reciprocal quantizer | arithmetic error analysis; refutation of exact rounding |
| C16 | `fdct` | linear arithmetic over the linear form of the transform |
| C17 | `fdct`, `fdct_avx2` vs real DCT | enclosures of cosines by half-angle formulas; error propagation through both passes |
| C18 | `fdct`, `quantize` | symbolic |
| C19 | tables | evaluation of a decidable validity predicate |
| C20 | `new_optimized` | forest invariant, Fibonacci depth bound, Kraft sum through K.3, termination measure |
| C21 | `new_optimized` | evaluation of two histograms exactly at the bounds |
| C22–C24, C38 | pixel formats | equality of presented samples, then congruence of the encoder in the image (`PCong`) |
| C25 | geometry | explicit block lists for both scan kinds |
| C26 | row loops, any buffer | trace simulation with an instrumented buffer (`PTrace`, `PRoom`) |
| C27, C28 | progressive bands | sweep over all accepted values; refutation for 34..64; scan headers of the exact file (`ThmAll`) |
| C29, C30, C37 | setters, sampling factors | induction over call lists |
| C31, C39, C40 | platform parameter | exact bytes of a platform-free reference encoder (`PBytes*`); simulation release → debug (`PRefine`) |
| C32 | AVX2 colour conversion | lane-wise equality with the scalar conversion; strict buffer that is undefined without room |
| C33 | AVX2 transform | symbolic evaluation of the lanes; exact difference; refutation of equality |
| C34 | `encode` with 32-bit `usize` | refutation by evaluation; proved with checks |
| C35 | header | symbolic prefix |
| C36 | as C01 | corollary; for every configuration from C40 and C03, with all bytes of the reference encoder's file in 0..255 (`PAll`, `ThmAll`) |
| C41 | C01 + C15 + C17 | orthogonality of the real DCT (inversion, Parseval) |
| C42 | `new_file`, BufWriter over any device | invariant file ++ buffer ++ rest = output, over the chunk lists of C07 |
| C43 | `new_optimized` at any histogram below 2^32 | case analysis at the two places that can leave the K.3 table range; C02's argument on success; the tables are the same term in every build, so all builds panic or none (`PPlat.opt_tables_or`, `ThmRestart.C43_outcome`). The theorems about successful calls hold up to 68,174,084 data units (`countable`: counts fit 32 bits); those that promise success also assume `tables_generated` (at most 146,467 data units, or this call does not end in the index panic) |
| C44 | `new_optimized`, every table accepted by the T.81 reader that covers the symbols | the merge loop is Huffman's greedy step (PTree tracks its cost); exchange argument for optimality against every Kraft-feasible assignment (PGreedy); Figures K.3/K.4 only drop the last size when nothing is limited (POptimal) |
| C45 | the whole optimized encode; bits of the reference encoder's scans with arbitrary tables (SSize.v) | the bits are a table-independent part plus the code words of the file's symbols; these symbols are a permutation of the ones the statistics counted (PSmall.file_symbols); C44 per table; Annex K covers every symbol |
| C46 | reference encoder's parts and the T.81 decoder | the decoder processes rendered parts one by one (`PParse`), so that decoding the written file is evaluation of the parts (`PDecide`); what success implies for quantizers, scan headers and DC tables; the converse from C01/C03, for greyscale by exchanging the unused table (`PCount`) |
| C47 | every program of the model | `safe R Q m` (PSafe): a predicate on interaction trees bounding the panic reasons for all writers; the chains of Figure K.1 stay a forest of full trees for any frequencies (`PForest`), so lengths of more than 16 bits occur an even number of times and Figure K.3 stops; then function by function (`PSafeEnc`) |
| C48 | the file of C40/C46, as parts | the decoder runs part by part (`PParse`), so every prefix of the parts decodes; an entry of the log has the component and band of its scan (`PPrefix.step_scan_log`), the script carries every coefficient exactly once and in order of frequency (`script_once`, `script_sorted`) |
| C49 | `JfifWrite` for `std::io::Write` with std's `write_all` loop as a big-step relation (so endless interruption has no result), `Vec<u8>`, `&mut W`, byte slices (`MWrite.v`) | induction over error-strict trees (`PWr.wr`) and over the relation; determinism |
| C50 | every successful call; the bound is computed in `SMax.v` from dimensions and configuration | the reference encoder's bytes (`written_tables`) counted part by part: code words ≤ 16 bits (`build_table`), categories ≤ 10 / 11 (C15's ranges), runs of zeros pay for ZRL and EOB; the scans partition 1..63 (`bands_bits`); slices through C49 (`PMax.v`) |
| C51 | `Display` and `source` (`MError.v`), the calls that are rejected | decimal rendering by induction on the digits, unique splitting of a number from what follows; the errors of the calls from C08–C11 (`ThmError.v`) |
| C52 | the tables of every successful call, against the symbols of the image (`SUsed.v`) | a table of the generator holds exactly the counted symbols (`table_misses`, `in_table`); the counted lists are the symbols of the scans (`all_ac_eq`, `units_fine`, `body_scans_eq`); ranges from C15 (`PUsed.v`) |
| C53 | two decoded files, with the area of pixels a block covers (`SLocal.v`) | both are `expected` (C46); `expected` depends on the samples of the block only, and these on the bytes of the pixels (`blocks_same`); the rest is geometry (`ThmLocal.v`) |
| C54 | the pixels an exact decoder with the inverse colour conversion stores (`SPixels.v`) | C41 for the components; triangle inequality for root mean squares, linear arithmetic for the conversion (`PPix.v`) |
| C55 | `encode_avx2`, `encode_image_avx2` | the proofs of C03, C05–C08, C14, C23, C24, C27, C29, C31, C36, C38–C40, C49 instantiated with the SIMD transform and conversion (they are generic in both) |
| C56 | a second decoder, as that of `T81.v` but going on after an interval it cannot decode (`SDamage.v`) | the bytes of a scan as runs between restart markers (as for C06 and C46), the entries of an intact run are those of the strict decoder, every block is in one interval of a scan (`PDamage.v`) |
| C57 | as C41; the second image is given by its distance (at most 1/2) from the exact reconstruction (`SGen.v`) | Parseval for the rounding error (at most 4 per coefficient), C17, all steps 11..2048 and all multiples up to 8230 checked by computation with monotonicity (C15) for the values in between; the file as a function of the coefficients (`PSame.v`) |
| C58 | as C46, two calls; grey pixels by format (`SGrey.v`) | from `decoded_with` (C46): a coefficient is a function of the samples and the step; the fixed-point colour conversion is exact on grey (C22); the transform of zero is zero |
| C59 | as C41 and C54; a decoder is any function within d of the exact reconstruction (`SDecoder.v`) | C41 (Parseval), Minkowski's inequality for the root mean square, clamping does not move a value away from 0..255 |
| C60 | the encoder on a buffer with state (`MSource.v`) | the invariants of C47 and C07 again for it; programs of the same shape (`rel`, PSource.v): a buffer that serves the row order of C26 leads to the same program as the image (`ThmSource.v`) |
| C61 | every successful call; a reader of marker segments (`SStream.v`) | the file is a list of parts whose boundaries can be seen (as for C46); the reader is monotone in what follows (`ThmStream.v`) |
| C62 | as C40, any image buffer | the program after the application segments is the same term for both configurations (`ThmMeta.v`) |
| C63 | both transforms, quantizer, pixel formats | every AC row of the integer matrix sums to 0, row 0 of the first pass shifts by a whole number, so roundings cancel; DC = 8 times the mean; C15 for the quantizer; the coefficients of Y sum to 65536, those of Cb and Cr to 0 (`ThmBright.v`) |
| C64 | as C40 / C57, any image | `PSame.v`: equal coefficients give equal histograms, tables and bits (`ThmCoef.v`) |
| C65 | as C58 | a component with table 0 has the largest sampling factors, so every sample is used; C58 per component (`ThmLuma.v`) |
| C66 | the settings of both calls; the programs of both coding paths | equal effective settings (`same_request`, SEffect.v: equal table entries as numbers, equal other options) and equal sampling factors build the same program, so every writer, buffer and outcome is covered; for greyscale the interleaved and the sequential path are compared through the exact bytes of C40 (`ThmEffect.v`) |
| C67 | both calls, the bytes of both files | the coefficients of all coded blocks agree because the encoder continues the image in the same way; C64 generalized to two sizes with the same block grid (`PPad.v`): same Huffman tables, same scans, so only SOF differs (`ThmPad.v`) |
| C68 | both calls, decoded coefficients of both files | the fixed-point quantizer is compared for quantizers q <= q' (error bounds of the reciprocal; consecutive quantizers up to 69 by computation on the finitely many critical values), then C46; refuted beyond 69 by a concrete image (`ThmFiner.v`) |
| C69 | the three calls, the bytes of the three files as segments and scans | C40 (exact bytes): the MCUs of the whole image are those of the upper strip followed by those of the lower one shifted, groups of restart intervals split at a multiple of the interval, the coefficients agree because a cut between MCUs needs no edge padding above it (`ThmStrip.v`) |
| C70 | new_optimized (links, find_least, code size limitation), optimize_huffman_table, whole calls | the array of links simulates joining trees (chain = leaves of a tree, code size = depth), the two least-frequency searches are `take_first`, the limitation loop is `move_pair` iterated; then the counted symbols are those of the specification and the bytes follow from C40 / C49 (`PAnnexK2.v`, `PAnnexK2F.v`, `ThmAnnexK2.v`) |
| C71 | `run_encode`, `run_encode_image`, `run_encode_avx2`; `min_size` adds up the segments and, for each restart interval, the least bits of its data units rounded up to bytes | the file is `jpeg_file_with annexK_tables` of the frame's coefficients (C02/C44); every data unit takes at least the bits of an all-zero unit under the Annex K tables (by the code lengths, for every coefficient value), padding and stuffing only add; with all coefficients zero each unit takes exactly them and no 0xFF byte arises, so nothing is stuffed (invariant over the bit string of repeated 00/1010/00 code words) |
| C72 | `run_encode`, `run_encode_image`, `run_encode_avx2`, independent decoder `decode` | both transforms are within 2^27 of 2^26 times one exact double sum over the integer matrix (row rounding 2^10 per row, weights of absolute sum at most 65536), which the symmetries of the matrix move exactly; four units of difference move the quantizer by at most a step (exact division for table entry 1, C15 error bound beyond); for patterns the sums vanish before rounding; lifted to files with C46 |
| C73 | `run_encode`, `run_encode_image`, `run_encode_avx2`, independent decoder `decode` | the exact double sum is linear and its weights are bounded (65536 in absolute sum per row, 11363 each); the transforms are within 2^27 of it (C72); the quantizer's error bound (C15); the conversion coefficients sum to 65536 in absolute value, so a floor moves by at most e |
| C74 | `run_encode`, `run_encode_image`, `run_encode_avx2` | every successful file is `jpeg_file_with` the tables `file_tables` (C70), none of whose parts but DRI and the scan data depends on the interval; an interval at least as long as the scan leaves one group of MCUs |
| C75 | `run_encode`, `run_encode_avx2` | both files decode to the image's planes transformed and quantized (C46), and a plane is computed from the bytes in `channels` (`spec_plane`) |
| C76 | `run_encode`, `run_encode_image`, `run_encode_avx2` | the transform is within two units of an exact linear one (C72), whose AC parts of constant blocks vanish, and the quantizer is odd and moves by one step at most when its argument moves by four (C15, C72, C73) |
| C77 | `run_encode`, `run_encode_image`, `run_encode_avx2` | both calls write the reference encoder's file (C40); its coefficients in the first MCUs depend on the first rows only, and the whole bytes of a code sequence do not depend on what follows |
| C78 | `run_encode`, `run_encode_image`, `run_encode_avx2` | as C77; the MCUs of a scan are listed by rows, and neither their blocks nor the samples of blocks above row n depend on the height |

Further properties are listed in properties.jsonl; for each, the head comment of its `Thm*.v` section says what is proved.

## 5. Findings

1. Optimized Huffman tables + restart interval: DC statistics ignore the predictor reset; a needed code may be missing (C03).
2. Custom quantization entries 256..2048 are truncated to a byte in DQT (C12).
3. 34..64 progressive scans: first AC scan header has Ss = 1, Se = 0 (C28).
4. ICC profiles needing exactly 255 chunks are rejected (C11).
5. `new_optimized` panics at histogram total 9,227,465 (Fibonacci) or 255 used symbols (C21).
6. AVX2 transform: the rounding constant of pass 2, rows 0 and 4, is missing in the odd lanes (C33).
7. 32-bit release builds: `width*height*bpp` wraps, short data is accepted (C34); with `simd` the safe API then reaches undefined behaviour (C32).
8. The quantizer is not exact rounding (C15).
9. `new_file`: the BufWriter is never flushed by `encode`; errors of the flush in `Drop` are lost (C42).

## 6. Testing the theorems against wrong programs

`seeded/LOG.jsonl`: one line per edit of the model (made in a scratch copy), the claim it breaks, the theorems that failed to build.  Edits that are equivalent are marked as such.
