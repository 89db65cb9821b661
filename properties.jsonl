{"id": "C01", "title": "Firmware PF equals reference PF", "statement": "pfalgo3_full and pfalgo3_full_ref, given the same emcalo/hadcalo/track/mu arrays, write outputs that the testbench comparator pf_equals accepts slot by slot (outch, outpho, outne, outmu).", "quantifier": "every array content in the legal ranges, every array size", "why_tests_cant": "the testbench compares the two on 500 recorded regions; agreement must hold on ties, saturations, wrap-arounds and every combination of links", "anchors": ["firmware/simple_fullpfalgo.cpp:pfalgo3_full", "simple_fullpfalgo_ref.cpp:pfalgo3_full_ref", "utils/test_utils.cpp:pf_equals"]}
{"id": "C02", "title": "Links go to the nearest admissible object and only to it", "statement": "For each track (or EM cluster) the link bits produced by tk2em_link, tk2calo_link_dronly, tk2calo_link_drdpt and em2calo_link have at most one bit set; the set bit is the lowest-index object of minimal distance among those passing the pt cut and strictly inside the distance cut; no bit is set exactly when no object is admissible. The reference's table of links (link_ref) marks the same cluster for every track, and with the cut on the transverse momentum it is the firmware's table.", "quantifier": "all tracks and calorimeter arrays with fields in the range of their types, any array length (tk2calo_link_drdpt: pts and errors not negative)", "why_tests_cant": "argmin with tie-breaking over all pairs of array entries; a test samples a handful of configurations", "anchors": ["firmware/simple_fullpfalgo.cpp:pick_closest", "firmware/simple_fullpfalgo.cpp:tk2em_link", "firmware/simple_fullpfalgo.cpp:tk2calo_link_dronly", "firmware/simple_fullpfalgo.cpp:tk2calo_link_drdpt", "firmware/simple_fullpfalgo.cpp:em2calo_link", "simple_fullpfalgo_ref.cpp:link_ref"]}
{"id": "C03", "title": "Charged output slot i is track i or empty", "statement": "After pfalgo3_full, outch[i] either has pt, eta, phi, z0 of track[i] or is entirely zero. It is kept exactly when the track is linked to a muon, or flagged electron, or below its quality-dependent pt threshold (80 if hwTightQuality else 40), or linked to a hadronic cluster.", "quantifier": "copy-or-empty: all inputs with a defined run, all slots; the rule for keeping: all legal inputs whose cluster sums fit their types", "why_tests_cant": "must hold for every combination of link bits and pt values", "anchors": ["firmware/simple_fullpfalgo.cpp:tk2calo_tkalgo", "firmware/simple_fullpfalgo.cpp:pfalgo3_full"]}
{"id": "C04", "title": "Muon output is the best pt-matched track near the muon", "statement": "outmu[m] is all zero or a copy of the track (with PID_Muon) that among tracks with dr2 < 2101 has the smallest |pt difference|, lowest index on ties, and that difference is below mu.pt/2 (integer halved); it is all zero exactly when there is no such track. Such a track never has pt 0 and appears in outch in its own slot with PID_Muon.", "quantifier": "all muon and track arrays with non-negative pt", "why_tests_cant": "minimum over all tracks with ties and a fallback sentinel value stored in the same 16-bit field", "anchors": ["firmware/simple_fullpfalgo.cpp:spfph_mutrk_link", "firmware/simple_fullpfalgo.cpp:spfph_mualgo", "firmware/simple_fullpfalgo.cpp:pfalgo3_full"]}
{"id": "C05", "title": "Particle ids are consistent", "statement": "outch ids are in {charged, electron, muon}, photons have id PID_Photon iff pt != 0 (else 0), neutrals PID_Neutral iff pt != 0 (else 0); a track linked to a muon is never reported as electron; empty slots of outpho/outne/outmu are all zero.", "quantifier": "all legal inputs (fields in the range of their types, transverse momenta and errors not negative)", "why_tests_cant": "holds for every reachable combination of flags", "anchors": ["firmware/simple_fullpfalgo.cpp:tk2calo_tkalgo", "firmware/simple_fullpfalgo.cpp:tk2em_photons", "firmware/simple_fullpfalgo.cpp:tk2calo_caloalgo", "firmware/simple_fullpfalgo.cpp:spfph_mualgo"]}
{"id": "C06", "title": "Photon pt follows the EM/track balance rule", "statement": "For EM cluster i with S = sum of pt of the non-muon tracks linked to it: if S = 0 the photon has the full cluster pt; otherwise with d = pt - S: if d > 0 and d^2 > sigma^2 + floor(sigma^2/2) the photon has pt d; else no photon. Hence 0 <= photon pt <= cluster pt and the position is that of the cluster.", "quantifier": "all legal inputs whose cluster sums fit their types", "why_tests_cant": "thresholds on squared fixed-width integers", "anchors": ["firmware/simple_fullpfalgo.cpp:tk2em_sumtk", "firmware/simple_fullpfalgo.cpp:tk2em_emalgo", "firmware/simple_fullpfalgo.cpp:tk2em_photons"]}
{"id": "C07", "title": "Electron identification rule", "statement": "A track is reported as electron exactly when it is linked to an EM cluster that is classified electromagnetic: S = 0, or d > 0, or d < 0 with d^2 < 4 sigma^2.", "quantifier": "all legal inputs whose cluster sums fit their types", "why_tests_cant": "boundary cases d = 0 and d^2 = 4 sigma^2 are not in the sample", "anchors": ["firmware/simple_fullpfalgo.cpp:tk2em_emalgo", "firmware/simple_fullpfalgo.cpp:tk2em_elealgo"]}
{"id": "C08", "title": "Neutral hadrons come from hadronic clusters and never exceed their energy", "statement": "Every non-empty outne entry has the position of some hadronic cluster c, PID_Neutral and 0 < pt <= (c.pt minus the EM pt linked to c); pt equals either the EM-subtracted pt (no linked tracks) or that minus the sum of the linked non-electron non-muon tracks' pt, the latter only when the squared difference exceeds 1.5 times the sum of squared track errors.", "quantifier": "all legal inputs whose cluster sums fit their types", "why_tests_cant": "energy bookkeeping across several link tables", "anchors": ["firmware/simple_fullpfalgo.cpp:em2calo_sub", "firmware/simple_fullpfalgo.cpp:tk2calo_sumtk", "firmware/simple_fullpfalgo.cpp:tk2calo_caloalgo", "firmware/simple_fullpfalgo.cpp:ptsort_hwopt"]}
{"id": "C09", "title": "Neutral selection keeps the highest-pt candidates, sorted", "statement": "outne is sorted by decreasing pt and is exactly the NSELCALO highest-pt entries of the NCALO candidates (later candidate first on ties); nothing dropped has larger pt than anything kept; the output never depends on the uninitialised contents of the sorting buffer, provided NSELCALO <= NCALO and candidate pts are >= 0.", "quantifier": "the sorter: all lists and sizes; the neutral output of the algorithm: all legal inputs whose cluster sums fit their types", "why_tests_cant": "uninitialised memory and ties are invisible to the comparator used in the test", "anchors": ["firmware/simple_fullpfalgo.cpp:ptsort_hwopt", "simple_fullpfalgo_ref.cpp:ptsort_ref"]}
{"id": "C10", "title": "Firmware and reference sorters agree", "statement": "ptsort_hwopt and ptsort_ref return identical arrays for every input with non-negative pts and NIn >= NOut.", "quantifier": "all arrays and sizes", "why_tests_cant": "two different insertion algorithms, ties", "anchors": ["firmware/simple_fullpfalgo.cpp:ptsort_hwopt", "simple_fullpfalgo_ref.cpp:ptsort_ref"]}
{"id": "C11", "title": "pfalgo3_full has defined behaviour on legal inputs", "statement": "For every input with 0 <= track ptErr, sum of squared track errors < 2^31/1.5 and EM ptErr <= 23170, pfalgo3_full performs no out-of-range table access and no signed int overflow; a negative track ptErr makes it index its lookup table out of bounds.", "quantifier": "all inputs", "why_tests_cant": "undefined behaviour need not show in a run", "anchors": ["firmware/simple_fullpfalgo.cpp:calc_dptscale", "firmware/simple_fullpfalgo.cpp:tk2em_emalgo", "firmware/simple_fullpfalgo.cpp:tk2calo_sumtk", "firmware/simple_fullpfalgo.cpp:tk2calo_caloalgo"]}
{"id": "C12", "title": "dr2_int is the squared distance", "statement": "dr2_int is symmetric, zero on equal points, non-negative and at most 2^19, and equals the exact squared Euclidean distance whenever both coordinate differences fit in 10 signed bits (in particular for coordinates in [-256,255]); outside it aliases far objects to near ones. dr2_int_cap returns min(dr2,max).", "quantifier": "all 10-bit coordinates", "why_tests_cant": "2^40 argument combinations", "anchors": ["firmware/simple_fullpfalgo.cpp:dr2_int", "firmware/simple_fullpfalgo.cpp:dr2_int_cap"]}
{"id": "C13", "title": "The combined dR/pt metric never saturates on admissible pairs", "statement": "For a track with 0 <= ptErr and 0 <= pt and a cluster passing the pt cut and dr2 < 756, the firmware's combined metric is strictly below its cap 3780, so such a pair is always linkable; and it equals the exact integer formula used by the reference unless ptErr = 1.", "quantifier": "all tracks and clusters", "why_tests_cant": "the argument is a bound over a 512-entry lookup table times all pts", "anchors": ["firmware/simple_fullpfalgo.cpp:dr2_dpt_int_cap", "firmware/simple_fullpfalgo.cpp:calc_dptscale", "firmware/simple_fullpfalgo.cpp:tk2calo_drdptvals", "simple_fullpfalgo_ref.cpp:best_match_with_pt_ref"]}
{"id": "C14", "title": "Empty slots are inert", "statement": "Clearing is neutral: an all-zero track, hadronic cluster or muon slot contributes nothing (it yields an empty output slot and leaves every other output as it would be without it). For EM slots this is also expected of an empty EM slot.", "quantifier": "all inputs, any position of the empty slot", "why_tests_cant": "depends on geometry of the other objects relative to the all-zero slot at (0,0)", "anchors": ["firmware/simple_fullpfalgo.cpp:tk2em_drvals", "firmware/simple_fullpfalgo.cpp:tk2calo_drdptvals", "firmware/simple_fullpfalgo.cpp:em2calo_drvals"]}
{"id": "C15", "title": "Tracks identified as muons do not touch calorimeter outputs", "statement": "outpho and outne are unchanged if every muon and every muon-linked track is cleared from the input.", "quantifier": "all legal inputs", "why_tests_cant": "relational property between two runs", "anchors": ["firmware/simple_fullpfalgo.cpp:tk2em_drvals", "firmware/simple_fullpfalgo.cpp:tk2calo_sumtk", "firmware/simple_fullpfalgo.cpp:spfph_mualgo"]}
{"id": "C16", "title": "MP7 input encoding round-trips", "statement": "mp7wrapped_unpack_in(mp7wrapped_pack_in(x)) = x for every input whose fields are in the range of their types, bit for bit, whatever the data array held before.", "quantifier": "all field values, all array sizes that fit the channels", "why_tests_cant": "bit layout of signed fields, 2^64+ values", "anchors": ["firmware/mp7pf_encoding.h:mp7_pack", "firmware/mp7pf_encoding.h:mp7_unpack", "firmware/simple_fullpfalgo.cpp:mp7wrapped_pack_in", "firmware/simple_fullpfalgo.cpp:mp7wrapped_unpack_in"]}
{"id": "C17", "title": "MP7 output encoding round-trips", "statement": "mp7wrapped_unpack_out(mp7wrapped_pack_out(x)) returns pt, eta, phi, id (and z0 of charged objects) unchanged; hwPtPuppi is not transported.", "quantifier": "all field values, all array sizes", "why_tests_cant": "as above", "anchors": ["firmware/simple_fullpfalgo.cpp:mp7wrapped_pack_out", "firmware/simple_fullpfalgo.cpp:mp7wrapped_unpack_out"]}
{"id": "C18", "title": "The MP7 wrapper computes pfalgo3_full", "statement": "Packing inputs, running mp7wrapped_pfalgo3_full and unpacking the outputs gives exactly the objects pfalgo3_full computes directly.", "quantifier": "all inputs", "why_tests_cant": "composition of two codecs with the algorithm", "anchors": ["firmware/simple_fullpfalgo.cpp:mp7wrapped_pfalgo3_full"]}
{"id": "C19", "title": "Channel maps do not overlap and fit", "statement": "mp7wrapped_pack_in / pack_out write exactly the first 2*(number of objects) channels, each once, and leave all other channels unchanged; for the configured sizes that is within MP7_NCHANN (and within the CTP7 channel counts).", "quantifier": "all data arrays, all sizes", "why_tests_cant": "frame condition on untouched channels", "anchors": ["firmware/simple_fullpfalgo.cpp:mp7wrapped_pack_in", "firmware/simple_fullpfalgo.cpp:mp7wrapped_pack_out", "firmware/data.h:MP7_NCHANN"]}
{"id": "C20", "title": "Firmware PUPPI equals reference PUPPI", "statement": "simple_puppi_hw and simple_puppi_ref give the same hwPtPuppi for every neutral, as long as the e^alpha sum of each neutral stays below 2^31 (and hwPtPuppi of empty neutrals is 0 on entry).", "quantifier": "all charged/neutral arrays, all Z0, any 8-bit weight table", "why_tests_cant": "fixed-point sums over all pairs", "anchors": ["puppi/firmware/simple_puppi.cpp:simple_puppi_hw", "puppi/simple_puppi_ref.cpp:simple_puppi_ref"]}
{"id": "C21", "title": "PUPPI weight only scales down", "statement": "For a neutral with pt >= 0, simple_puppi_hw sets 0 <= hwPtPuppi <= hwPt and modifies no other field and no charged object.", "quantifier": "all inputs, any 8-bit weight table", "why_tests_cant": "all inputs", "anchors": ["puppi/firmware/simple_puppi.cpp:simple_puppi_hw"]}
{"id": "C22", "title": "PUPPI keeps nothing without a nearby vertex track and everything with a strong one", "statement": "If no charged object with |Z0 - z0| <= 256 lies within dr2 <= 8404 of a neutral, hwPtPuppi = 0; if the e^alpha sum (below 2^31) is at least 1174*1024 then hwPtPuppi = hwPt.", "quantifier": "all inputs", "why_tests_cant": "threshold behaviour on all inputs", "anchors": ["puppi/firmware/simple_puppi.cpp:simple_puppi_hw"]}
{"id": "C23", "title": "PUPPI is monotone in vertex activity", "statement": "Adding charged objects (without overflow of the sum) never decreases hwPtPuppi of a neutral when the weight table is non-decreasing.", "quantifier": "all inputs, all monotone tables", "why_tests_cant": "relational property between two runs", "anchors": ["puppi/firmware/simple_puppi.cpp:simple_puppi_hw"]}
{"id": "C24", "title": "PUPPI fixed-point sums do not overflow", "statement": "For all legal inputs (pt up to the pt_t maximum) the e^alpha sum is computed without signed overflow and the firmware and the reference agree.", "quantifier": "all inputs", "why_tests_cant": "overflow only for very high-pt close tracks", "anchors": ["puppi/firmware/simple_puppi.cpp:_lut_shift15_divide", "puppi/simple_puppi_ref.cpp:simple_puppi_ref"]}
{"id": "C25", "title": "LUT division accuracy", "statement": "_lut_shift15_divide(num,den) for den > 0 is at most num*2^15/den and more than num*(2^15/den - 1); it is exact for den a power of two up to 256; den = 0 behaves as den = 1.", "quantifier": "all 17-bit num, 9-bit den", "why_tests_cant": "2^26 combinations", "anchors": ["puppi/firmware/simple_puppi.cpp:_lut_shift15_divide", "puppi/firmware/simple_puppi.cpp:_lut_shift15_invert_init"]}
{"id": "C26", "title": "Vertex histogram holds the saturated pt sum, independent of track order", "statement": "After any sequence of bhv_add_track calls with non-negative pt starting from a cleared histogram, bin b holds min(511, sum of min(100, floor(pt/2)) over the valid tracks with bin b); in particular the order of tracks is irrelevant and invalid tracks change nothing.", "quantifier": "all track sequences", "why_tests_cant": "arbitrary-length histories", "anchors": ["vertexing/firmware/bram_hist_vtx.cpp:bhv_add_track"]}
{"id": "C27", "title": "z binning is correct", "statement": "fetch_bin_ref marks z0 valid iff -288 <= z0 <= 287, the bin is then in [0,72) and bin_center_ref of it differs from z0 by at most 4; fetch_bin_ref(bin_center_ref(b)) = (b, valid) for all b < 72; bins are monotone in z0.", "quantifier": "all 10-bit z0 and all bins", "why_tests_cant": "finite but must be complete", "anchors": ["vertexing/firmware/bram_hist_vtx.h:fetch_bin_ref", "vertexing/firmware/bram_hist_vtx.h:bin_center_ref"]}
{"id": "C28", "title": "Firmware vertex finder equals the reference", "statement": "Filling one histogram per sector with bhv_add_track, packing even/odd bins as the testbench does and calling bhv_find_pv gives the same bin, vertex z and pt sum as bhv_find_pv_ref.", "quantifier": "all tracks with non-negative pt, any number of tracks per sector, up to 64 sectors", "why_tests_cant": "tie-breaking between paired bins", "anchors": ["vertexing/firmware/bram_hist_vtx.cpp:bhv_find_pv", "vertexing/bram_hist_vtx_ref.cpp:bhv_find_pv_ref", "vertexing/bram_hist_vtx_test.cpp:main"]}
{"id": "C29", "title": "Primary vertex is the first maximal bin", "statement": "bhv_find_pv returns the lowest-index bin whose sum over sectors is maximal, together with that sum (bin 0 and 0 when everything is empty).", "quantifier": "all histogram contents", "why_tests_cant": "argmax over pairs with ties", "anchors": ["vertexing/firmware/bram_hist_vtx.cpp:bhv_find_pv"]}
{"id": "C30", "title": "Negative pt must not corrupt the vertex histogram", "statement": "bhv_add_track ignores tracks with non-positive pt, as the reference does.", "quantifier": "all pt_t values", "why_tests_cant": "signed bit test on a negative sum", "anchors": ["vertexing/firmware/bram_hist_vtx.cpp:bhv_add_track", "vertexing/bram_hist_vtx_ref.cpp:bhv_find_pv_ref"]}
{"id": "C31", "title": "simple_vtx_ref stays inside its histogram", "statement": "For every track array of NALLTRACK entries simple_vtx_ref accesses only bins 0..NVTXBINS-1.", "quantifier": "all z0 values", "why_tests_cant": "only z0 in two narrow windows breaks it", "anchors": ["vertexing/simple_vtx_ref.cpp:simple_vtx_ref"]}
{"id": "C32", "title": "simple_vtx_ref returns the first bin of maximal clipped pt sum", "statement": "For tracks with 0 <= pt whose z0 avoids the out-of-range windows, simple_vtx_ref returns the largest per-bin sum of min(pt,200), the centre of the lowest such bin, and (0,0,0) for an empty event; the quality flag is 1 iff more than 3 tracks are in that bin, as long as fewer than 16 tracks share it.", "quantifier": "all arrays of at most 163 tracks (one more could overflow the 16-bit sum of a bin)", "why_tests_cant": "arbitrary contents", "anchors": ["vertexing/simple_vtx_ref.cpp:simple_vtx_ref"]}
{"id": "C33", "title": "Tree reduction of simple_vtx_hwopt equals the plain histogram", "statement": "For any z-binning function, the per-bin sums and multiplicities that simple_vtx_hwopt obtains by pairwise tree reduction over 2^NPOW tracks equal the sums over all tracks (in the wrap-around arithmetic of their types).", "quantifier": "all track arrays, all NPOW up to 6, all binning functions into range", "why_tests_cant": "loop nest with data-independent but size-dependent indexing", "anchors": ["vertexing/firmware/simple_vtx.cpp:simple_vtx_hwopt", "vertexing/firmware/simple_vtx.cpp:fillVtx"]}
{"id": "C34", "title": "simple_vtx_hwopt output depends only on its input tracks", "statement": "The vertex written to *outvtx is a function of the tracks of this event.", "quantifier": "all event histories", "why_tests_cant": "stale data from a previous event", "anchors": ["vertexing/firmware/simple_vtx.cpp:simple_vtx_hwopt"]}
{"id": "C35", "title": "Sector deserialiser keeps the highest-pt objects of each eta slice in order", "statement": "deserialize_ptsort_eta leaves in slice (sector, eta bin) the objects of that sector's fibre whose eta is in the slice and pt > 0, sorted by decreasing pt (arrival order on ties), truncated to the slice capacity, eta shifted to the slice frame, padded with cleared objects.", "quantifier": "all streams, any lengths and capacities", "why_tests_cant": "shift-register insertion over arbitrary sequences", "anchors": ["regionizer/firmware/regionizer.cpp:deserialize_ptsort_eta", "regionizer/firmware/regionizer.cpp:push_in_sector_eta", "regionizer/regionizer_ref.cpp:push_in_sector_ref"]}
{"id": "C36", "title": "Firmware merge equals reference merge", "statement": "merge_smart and merge_sectors_ref give the same region content for any three sector lists sorted by decreasing pt with cleared padding, if the region capacity is at least the sector capacity.", "quantifier": "all lists, all phi shifts", "why_tests_cant": "insertion vs three-way merge with ties and truncation", "anchors": ["regionizer/firmware/regionizer.cpp:merge_smart", "regionizer/regionizer_ref.cpp:merge_sectors_ref"]}
{"id": "C37", "title": "Firmware regioniser equals reference regioniser", "statement": "regionize_hadcalo and regionize_hadcalo_ref produce identical regions from identical fibres.", "quantifier": "all fibre contents", "why_tests_cant": "composition of the two previous properties over 12 sectors and 18 regions", "anchors": ["regionizer/firmware/regionizer.cpp:regionize_hadcalo", "regionizer/regionizer_ref.cpp:regionize_hadcalo_ref"]}
{"id": "C38", "title": "merge_smart stays inside its buffer in every configuration", "statement": "merge_smart never writes outside tmp[N_OBJ_PER_REGION] for the object counts the headers configure.", "quantifier": "all configurations selected by the build scripts", "why_tests_cant": "stack overflow by two entries need not crash", "anchors": ["regionizer/firmware/regionizer.cpp:merge_smart", "firmware/data.h:NCALO", "regionizer/firmware/regionizer.h:NCALO_PER_SECTOR_PER_ETA", "regionizer/run_hls_regionizer.tcl"]}
{"id": "C39", "title": "Regioniser preserves global coordinates", "statement": "Every non-empty object in output region (ie, ip) corresponds to an input object of one of its three sectors with the same pt and other fields, and region-local eta plus region centre equals the input eta, region-local phi plus region centre equals the input's global phi modulo 2*pi (1440 units), provided the local coordinates do not overflow 10 bits.", "quantifier": "all inputs", "why_tests_cant": "wrap between last and first sector", "anchors": ["regionizer/firmware/regionizer.h:IN_SECTOR_OF_REGION", "regionizer/regionizer_ref.cpp:regionize_ref"]}
{"id": "C40", "title": "Regioniser loses nothing while capacities suffice", "statement": "Every input object with pt > 0 and |eta| <= 342 appears in at least one region, in every region whose eta slice and sectors contain it, unless a slice or region holding it is full of objects of at least the same pt.", "quantifier": "all inputs", "why_tests_cant": "completeness over all inputs", "anchors": ["regionizer/regionizer_ref.cpp:regionize_ref", "regionizer/firmware/regionizer.h:ETA_MIN"]}
{"id": "C41", "title": "Regionisers consume exactly one event from each fibre", "statement": "Each call reads exactly the configured number of objects from each fibre, in order, leaving the rest untouched, and (despite static work buffers) the result depends only on what it read in this call.", "quantifier": "all fibre contents, any sequence of calls", "why_tests_cant": "history property", "anchors": ["regionizer/regionizer_ref.cpp:regionize_ref", "regionizer/firmware/regionizer.cpp:deserialize_ptsort_eta"]}
{"id": "C42", "title": "Muon regioniser preserves global phi and places muons in the right regions", "statement": "merge_muon_in followed by regionize_muon_ref puts in region (ie, ip) only muons of its eta slice and phi window, with global phi (mod 1440) and eta preserved, sorted by pt; a muon that survives the 12-to-4 merge appears in every region whose window contains it unless NMU muons of at least its pt are there.", "quantifier": "all muon inputs", "why_tests_cant": "boundary cases in phi and sector wrap-around", "anchors": ["regionizer/regionizer_ref.cpp:merge_muon_in", "regionizer/regionizer_ref.cpp:regionize_muon_ref"]}
{"id": "C43", "title": "MP7 pattern file follows the documented multiplexing layout", "statement": "After any number of events, the complete groups written by MP7PatternSerializer with nmux > 1 satisfy payload[g*nmux+t][m*nchann+c] = event[g*nmux+m][c*nmux+t], cut to the first nlinks words, and frames are numbered 0,1,2,... without gaps; with nmux = 1 frame i is event i. Without muxing this holds however many events are written, with frame numbers counted modulo 2^32.", "quantifier": "all event sequences, all nmux dividing 144", "why_tests_cant": "stateful buffer, arbitrary histories", "anchors": ["utils/pattern_serializer.cpp:MP7PatternSerializer", "utils/pattern_serializer.h:MP7PatternSerializer"]}
{"id": "C44", "title": "MP7 pattern file is complete and numbered on close", "statement": "On destruction an incomplete group is flushed with the missing events as zeros and frame numbers continuing the sequence.", "quantifier": "all event counts, all nmux", "why_tests_cant": "only when the event count is not a multiple", "anchors": ["utils/pattern_serializer.cpp:~MP7PatternSerializer", "utils/pattern_serializer.cpp:flush"]}
{"id": "C45", "title": "Every event written to a muxed MP7 pattern file can be recovered", "statement": "From the pattern file all words of all events can be reconstructed (with nempty = nmux-1 filler frames and the default number of links; or with any nempty when nlinks covers all channels). The heading lines name quad, channel and link number above the column that holds the words of each link, in every file of up to 100 links and 10000 frames.", "quantifier": "all event sequences", "why_tests_cant": "depends on default link count", "anchors": ["utils/pattern_serializer.cpp:operator()", "utils/pattern_serializer.cpp:push"]}
{"id": "C46", "title": "CTP7 pattern file never exceeds the board memory", "statement": "CTP7PatternSerializer writes at most 1024 lines, line i carries index i, event n is on line 6n followed by up to 5 zero lines, and events beyond the memory are dropped without touching earlier lines. The heading names the links in order.", "quantifier": "all event sequences", "why_tests_cant": "boundary at 1024 lines", "anchors": ["utils/pattern_serializer.cpp:CTP7PatternSerializer::operator()", "utils/pattern_serializer.cpp:CTP7PatternSerializer::print"]}
{"id": "C47", "title": "Binary dump round-trips", "statement": "readFromFile(writeToFile(x)) restores every persisted field of calo clusters, tracks, muons and whole regions, resets the transient ones, and consumes exactly the bytes written, so concatenated dumps read back in order.", "quantifier": "all field values, all vector sizes", "why_tests_cant": "byte-level codec over all values", "anchors": ["DiscretePFInputs.h:CaloCluster", "DiscretePFInputs.h:PropagatedTrack", "DiscretePFInputs.h:Muon", "DiscretePFInputs.h:InputRegion", "DiscretePFInputs.h:writeManyToFile"]}
{"id": "C48", "title": "Region iteration yields every barrel region once, in order", "statement": "Repeated nextRegion calls on a well-formed dump return exactly the regions with |etaCenter| <= 1.5 of all events in file order and then false for ever; events with number 0 or without regions violate this.", "quantifier": "all dumps", "why_tests_cant": "arbitrary-length call histories", "anchors": ["utils/DiscretePFInputs_IO.h:DiscretePFInputs"]}
{"id": "C49", "title": "Input conversion fills the firmware arrays completely", "statement": "dpf2fw::convert copies the first NMAX objects in order, clears all remaining slots, and preserves every field that fits its firmware type (16-bit pt exactly; eta, phi, z0 exactly when in [-512,511], otherwise reduced modulo 1024).", "quantifier": "all vectors, all NMAX", "why_tests_cant": "all sizes including 0 and larger than NMAX", "anchors": ["utils/DiscretePF2Firmware.h:convert"]}
{"id": "C50", "title": "Output conversion reports exactly the non-empty particles", "statement": "fw2dpf::convert appends one PFParticle per entry with pt > 0, in order, with pt/eta/phi copied and id mapped charged->0, electron->1, neutral->2, photon->3, muon->4; the charged variant asserts that a source track exists for each and attaches it.", "quantifier": "all arrays", "why_tests_cant": "all sizes and contents", "anchors": ["utils/Firmware2DiscretePF.h:convert"]}
{"id": "C51", "title": "Testbench comparators are equivalence relations that see every compared field", "statement": "had_equals, em_equals, track_equals, mu_equals and pf_equals are reflexive, symmetric and transitive; for a reference object with pt != 0 they return true iff all compared fields are equal; for pt = 0 iff the other pt is 0; count_nonzero is the number of objects with positive pt.", "quantifier": "all object pairs/triples", "why_tests_cant": "relational property", "anchors": ["utils/test_utils.cpp"]}
{"id": "C52", "title": "Firmware bounds: outputs stay in their types", "statement": "Given legal inputs (fields in the range of their types, transverse momenta and errors not negative), every field of every pfalgo3_full output is in the range of its type, pts are non-negative, and array lengths are as declared.", "quantifier": "all legal inputs", "why_tests_cant": "all inputs", "anchors": ["firmware/simple_fullpfalgo.cpp:pfalgo3_full", "firmware/data.h"]}
{"id": "C53", "title": "Every word content decodes", "statement": "mp7wrapped_unpack_in applied to any channel contents (not only words produced by the packer) is defined whenever the sizes fit, and every field of every decoded object is in the range of its type.", "quantifier": "all 32-bit words in all channels, all sizes that fit", "why_tests_cant": "the testbench only decodes words it has just packed", "anchors": ["firmware/mp7pf_encoding.h:mp7_unpack", "firmware/simple_fullpfalgo.cpp:mp7wrapped_unpack_in"]}
{"id": "C54", "title": "The vertex position handed to the firmware is z0 in firmware units", "statement": "For a finite event z0 with |20*z0| <= 511, the hwZPV filled by nextRegion has the sign of z0 and differs from 20*z0 by less than 1 + 2^-15 towards zero (truncation) and by at most 2^-15 away from zero (rounding of the float product), with no wrap-around.", "quantifier": "all binary32 values of z0 in range", "why_tests_cant": "all float values, rounding and truncation combined", "anchors": ["utils/DiscretePFInputs_IO.h:nextRegion"]}
{"id": "C55", "title": "Firmware objects survive the round trip through the discrete format", "statement": "Converting a hadronic or electromagnetic calo object with fw2dpf::convert and back with dpf2fw::convert restores every field, whatever the discrete object held before; muons lose only hwPtErr (set to 0) and tracks only the tight-quality flag (recomputed from the stubs and chi2 of the discrete object).", "quantifier": "all objects in the range of their types, all prior contents", "why_tests_cant": "all field values", "anchors": ["utils/Firmware2DiscretePF.h:convert", "utils/DiscretePF2Firmware.h:convert"]}
{"id": "C56", "title": "The human-readable pattern file states every object of every event", "statement": "Reading the file written by HumanReadablePatternSerializer without knowledge of its column formats (words separated by blanks, integers and labels) gives, for every event in order, its number and then one labelled and indexed row per calo, em, track, muon, charged, photon, neutral and muon candidate with exactly the values of its printed fields; two sequences of events with the same text agree in every printed field; an unnamed serializer ignores its calls.", "quantifier": "all event sequences, all field values of the types, all array sizes", "why_tests_cant": "all field values (widths, signs), all sequences", "anchors": ["utils/pattern_serializer.cpp:HumanReadablePatternSerializer", "utils/pattern_serializer.h:HumanReadablePatternSerializer"]}
{"id": "C57", "title": "The particle-flow test program reports exactly the disagreements and records exactly what it tested", "statement": "On any well-formed dump the particle-flow test program, in its plain, MP7 and CTP7 builds, tests the regions in order (at most 500), exits with 1 at the first region where firmware and reference disagree and with 0 if there is none; the words it writes for a region are the encodings of its inputs and of the firmware outputs; the pattern files and the human-readable file hold exactly the tests made (the CTP7 files only the first 171); on dumps in the domain of C01 it passes.", "quantifier": "all dumps of well-formed events, all contents of uninitialised memory, all three builds, all array sizes that fit the board", "why_tests_cant": "it is the test: whether it can pass in spite of a disagreement or fail without one concerns every dump", "anchors": ["simple_fullpfalgo_test.cpp:main", "utils/pattern_serializer.cpp", "utils/test_utils.cpp:pf_equals"]}
{"id": "C58", "title": "The regionizer test program passes exactly when it should", "statement": "On any well-formed dump the regionizer test program tests the events in order (at most 50) with the objects of their twelve sectors, exits with 2 at the first event without twelve sectors, with 1 if a region differs between firmware and reference, with 3 if a stream is not empty, and with 0 otherwise; on dumps of twelve-sector events it passes, in every configuration of data.h.", "quantifier": "all dumps of well-formed events, all contents of uninitialised memory, all configurations", "why_tests_cant": "it is the test: whether it can pass in spite of a mismatch or fail without one concerns every dump", "anchors": ["regionizer/regionizer_test.cpp:main", "regionizer/firmware/regionizer.cpp", "regionizer/regionizer_ref.cpp", "utils/DiscretePFInputs_IO.h:nextEvent"]}
{"id": "C59", "title": "The regionizer test program's text dumps state every object", "statement": "Reading dump_in.txt and dump_out.txt as words and integers gives, for every test in order, numbered frames with exactly the printed fields of the objects of every input sector and of every output region; runs with equal files had equal inputs and equal regions.", "quantifier": "all runs on well-formed dumps, all field values, all array sizes", "why_tests_cant": "all field values (widths, signs) and all sequences of events", "anchors": ["regionizer/regionizer_test.cpp:dump_o", "regionizer/regionizer_test.cpp:dump_z", "regionizer/regionizer_test.cpp:main"]}
{"id": "C60", "title": "The regionizer test program's pattern files hold the words of every clock", "statement": "The eight multiplexed pattern files of the MP7 build hold, for every test and clock, the encodings of object ic of every sector (two tracks per sector) and of the objects of region ic, at consecutive link positions and zero elsewhere, on two correctly numbered lines; the two files without multiplexing hold each word list on two lines; runs with equal files had equal inputs and equal regions.", "quantifier": "all runs on well-formed dumps, all prior contents of the transposed arrays, all array sizes that fit the board", "why_tests_cant": "all contents and all sequences of events", "anchors": ["regionizer/regionizer_test.cpp:main", "firmware/mp7pf_encoding.h:mp7_pack", "utils/pattern_serializer.cpp:MP7PatternSerializer"]}
{"id": "C61", "title": "The vertex-finder test program counts exactly the disagreements and tests every event", "statement": "On every dump the program reads one event at a time, deals the first 36 tracks of each of the twelve sectors to two rows, runs reference and firmware on the rows, counts an error exactly when their bin, sum or z differ, stops with exit code 2 at an event without twelve sectors and exits with an error if it counted any; without negative pt it counts none and each vertex is the first bin with the largest pt sum.", "quantifier": "all dumps of well-formed events, any number of sectors and tracks, all prior contents of the arrays", "why_tests_cant": "all event sequences and all track values; arrays keep the previous event's contents", "anchors": ["vertexing/bram_hist_vtx_test.cpp:main", "vertexing/firmware/bram_hist_vtx.cpp:bhv_find_pv", "vertexing/bram_hist_vtx_ref.cpp:bhv_find_pv_ref"]}
{"id": "C62", "title": "The vertex-finder test program's files state every track, histogram and vertex", "statement": "The text dumps read as words and integers give the slice and half pt of every track of the first row (twice, first with flag 1) and the histogram of that row two bins a line, with consecutive frame numbers; the four pattern files hold the encodings of the tracks of every clock, the slices, the sum and bin found and the histograms of all rows, on correctly numbered lines; runs with equal pattern files made equal tests.", "quantifier": "all runs on well-formed dumps, all prior contents of the transposed array", "why_tests_cant": "all field values and all sequences of events", "anchors": ["vertexing/bram_hist_vtx_test.cpp:main", "firmware/mp7pf_encoding.h:mp7_pack", "utils/pattern_serializer.cpp:MP7PatternSerializer"]}
{"id": "C63", "title": "A dump that is cut short is read up to the cut and no further", "statement": "If the program writing an event dump is interrupted, so that only part of the last event is in the file, the complete events are still read exactly as written, and the incomplete one is not presented as an event: the reader ends there, and programs behave as on the dump of the complete events. (True for cuts within the run number only. A cut anywhere from there to the last count makes the reader use a count it never read; a later cut is not noticed: the event is shown with the muons and floats missing in the file taken from the previous event.)", "quantifier": "all sequences of complete well-formed events, all incomplete last events, every position of the cut, every program reading events or regions", "why_tests_cant": "every crash point of the writer and every history of events read before it", "anchors": ["utils/DiscretePFInputs_IO.h:DiscretePFInputs::nextEvent", "utils/DiscretePFInputs_IO.h:DiscretePFInputs::nextRegion", "DiscretePFInputs.h:l1tpf_int::readManyFromFile", "utils/DiscretePFInputs_IO.h:Event::readFromFile", "vertexing/bram_hist_vtx_test.cpp:main", "regionizer/regionizer_test.cpp:main"]}
{"id": "C64", "title": "Filling an object from floating point stores every quantity to half a unit, in order, or is undefined", "statement": "fill, fillInput, fillPropagated, setFloatPt and setPuppiW store pt, eta, phi, z0, vertex angles, inverse pt and puppi weight as the number of units (1/4 GeV, a 720th of pi, 1/20, 1/100000, 1/400000, 1/20000 of 1/pt, 1/100) nearest to the given float: pt exactly (halves away from zero), the 16-bit quantities within half a unit and a 200th, the others within half a unit and their relative rounding error. Larger floats are never stored as smaller integers, so sorting by operator< agrees with the floating point pt. A value the field cannot hold, an infinity or a NaN makes the conversion undefined rather than saturating; everything else is defined, and the resulting object is one the dump files can hold.", "quantifier": "all floats (all real arguments), all previous contents of the object", "why_tests_cant": "four billion floats per argument, including halves, subnormals and the edges of each range", "anchors": ["DiscretePFInputs.h:CaloCluster::fill", "DiscretePFInputs.h:InputTrack::fillInput", "DiscretePFInputs.h:PropagatedTrack::fillPropagated", "DiscretePFInputs.h:Muon::fill", "DiscretePFInputs.h:PFParticle::setPuppiW", "DiscretePFInputs.h:CaloCluster::operator<"]}
{"id": "C65", "title": "Reading an object as floating point and filling it again gives the same object", "statement": "For every object, calling fill (fillInput, fillPropagated, setFloatPt, setFloatEmPt, setPuppiW) with the values of floatPt, floatEta, floatPhi, floatVtxPt, floatVtxEta, floatVtxPhi, floatDZ, intCharge, floatPuppiW gives back all stored fields, including an inverse pt of 0 (infinite pt). (False for |hwPhi| >= 1440, which is reduced by whole turns, and for vertex angles beyond what a float holds; true for |hwPhi| < 1440 and vertex angles up to 4000000 units, i.e. 40 in eta and 10 in phi.)", "quantifier": "all contents of clusters, muons, input and propagated tracks, all puppi weights", "why_tests_cant": "all values of each field; the composed rounding errors of division, inversion and multiplication must stay below half a unit for each", "anchors": ["DiscretePFInputs.h:CaloCluster::floatPt", "DiscretePFInputs.h:InputTrack::floatVtxPt", "DiscretePFInputs.h:InputTrack::fillInput", "DiscretePFInputs.h:PFParticle::floatPuppiW"]}
{"id": "C66", "title": "The stored azimuth is the angle modulo one turn", "statement": "Filling from an angle phi stores an azimuth strictly between -1440 and 1440 units that equals the angle less a whole number of turns, to half a unit and a 200th; angles in [-pi, pi] are stored within [-720, 720] and without any reduction; the same direction is always stored as the same number. (The last is false: the remainder has the sign of the angle, so that a direction has two representations 1440 apart, and the two ends -pi and pi differ too; equal directions agree to one unit modulo 1440.)", "quantifier": "all angles", "why_tests_cant": "all floats, including both sides of every multiple of pi", "anchors": ["DiscretePFInputs.h:CaloCluster::fill", "DiscretePFInputs.h:PropagatedTrack::fillPropagated", "DiscretePFInputs.h:Muon::fill"]}
{"id": "C67", "title": "The table of puppi weights is monotone, empty below activity 22528 and never a full weight", "statement": "Building the weight table gives 1174 eight-bit weights that never decrease with the index, are 0 below index 22 and nowhere exceed 253/256. Hence a neutral with an activity sum below 22*1024 always gets puppi pt 0, one below 1174*1024 always keeps at most 253/256 of its pt, and adding charged objects never lowers any puppi pt. The C library's log, sqrt and pow need only be increasing and right to about a percent in a few points. With sqrt and pow right to a millionth, each weight from index 22 on is 256 times the rational approximation of the error function at the deviation of log(1024 k + 1) from 10, rounded down, to a thousandth.", "quantifier": "all C libraries whose log, sqrt and pow increase and have those few values; all charged and neutral objects and vertices", "why_tests_cant": "the table depends on the floating-point rounding of every operation and on the C library in use; a test sees one library and a few events", "anchors": ["puppi/firmware/simple_puppi.h:weight_function_float", "puppi/firmware/simple_puppi.h:lut_puppiweight_init", "puppi/firmware/simple_puppi.h:erf_approx", "puppi/firmware/simple_puppi.cpp:simple_puppi_hw"]}
{"id": "C68", "title": "The PUPPI test program runs and shows firmware and reference side by side", "statement": "Run on a dump of events, simple_pfpuppi_test processes the first 50 regions (all if fewer) and prints for each the neutrals of the particle-flow reference, photons first, with the puppi pt of firmware and reference, which are equal; it exits with 0. (False in every configuration: with a first region the vertex search reads 64 tracks from an array of 7 or 15. True of a program whose vertex search takes no more tracks than there are, whenever nothing overflows; with no region at all it exits with 0.)", "quantifier": "all dumps, all numbers of events and regions, all contents, all weight tables, any uninitialised memory", "why_tests_cant": "the out-of-bounds read goes unnoticed by the program itself; agreement must hold for all inputs", "anchors": ["puppi/simple_pfpuppi_test.cpp:main", "vertexing/simple_vtx_ref.cpp:simple_vtx_ref", "puppi/simple_puppi_ref.cpp:simple_puppi_ref", "firmware/data.h:NALLTRACK"]}
{"id": "C69", "title": "The vertexing test program agrees with itself for every random sequence", "statement": "Whatever numbers rand() returns, simple_vtx_test runs 50 tests without undefined behaviour and exits with 0; each test has 64 tracks, of which the first 31 to 62 have pt 8 to 408 and z0 -7 to 167 and the others are empty; the first 24 to 48 are pileup, with pt between 2 and 22 GeV and z anywhere, the next 7 to 14 are of the vertex, with pt between 2 and 102 GeV and z 0.35 cm before the true vertex (the divisions meant to spread them are integer divisions); on each printed line hardware and emulated dZ are equal, namely the centre of the first 20-count slice with the largest sum of clipped pts, between 10 and 170, and the true dZ is between 0 and 160. The two lookup functions simple_vtx.cpp uses but does not define must give, on these z0, the slices and centres of the reference.", "quantifier": "all sequences of random numbers, all initial contents of the vertex objects, all lookup functions right on the z0 that occur", "why_tests_cant": "the program is run with one seed; array indices and floating-point conversions depend on the numbers drawn", "anchors": ["vertexing/simple_vtx_test.cpp:main", "vertexing/firmware/simple_vtx.cpp:simple_vtx_hwopt", "vertexing/simple_vtx_ref.cpp:simple_vtx_ref"]}
{"id": "C70", "title": "nextRegion and nextEvent may be mixed on one input object", "statement": "On a well-formed dump of numbered events every sequence of nextRegion and nextEvent calls is defined, shows events and barrel regions in file order without repeating any, and skips only the rest of the event that nextEvent leaves. (The header says not to mix them. Repetition never happens and nextEvent before the first nextRegion is harmless; but nextEvent keeps the region counter, so after nextRegion it loses the first regions of the new event, and reads past the end of an event with fewer regions.)", "quantifier": "all dumps and all sequences of the two calls", "why_tests_cant": "histories of calls of any length over dumps of any size", "anchors": ["utils/DiscretePFInputs_IO.h:DiscretePFInputs::nextRegion", "utils/DiscretePFInputs_IO.h:DiscretePFInputs::nextEvent"]}
{"id": "C71", "title": "The random region generator draws sensible regions", "statement": "Every call of RandomPFInputs::nextRegion is defined and yields a region whose tracks, clusters and muons are drawn by that call, with energies, positions and vertex in the ranges the generator is written for. (With arrays cleared before, all objects written are in range, the last track slot is never written, and slots not written keep their content; energies are added to what the arrays hold, so with reused arrays a cluster's energy can wrap to a negative number; with room for one cluster the call divides by zero.) Every second track starts within 4 mm of the vertex drawn, and clusters only gain energy, except in the odd slots of the first three quarters, where a neutral may be drawn.", "quantifier": "all sequences of rand() results, array sizes and previous contents, and numbers of calls", "why_tests_cant": "a seed fixes one sequence; energies only wrap after many calls", "anchors": ["utils/random_inputs.h:RandomPFInputs::nextRegion"]}
{"id": "C72", "title": "Particle flow on inputs whose sums overflow", "statement": "On every legal input, also when transverse momentum sums leave 16 bits, pfalgo3_full either overflows an int or returns one definite result: the particle-flow rules with every pt sum and difference reduced to 16 bits. It overflows an int exactly when four times the squared error of an EM cluster whose (16-bit) linked track pt is not zero, the sum of squared errors of the tracks linked to one hadronic cluster, or one and a half times that sum where it is compared, exceeds 2^31-1. Where the sums of each cluster fit, the result is that of exact arithmetic. Once a sum wraps, photons and neutral hadrons keep the position of their cluster but may exceed its energy, and linked tracks of total pt 65536 count as none.", "quantifier": "all array lengths and contents with fields in the range of their types and non-negative pt and errors, all previous memory contents", "why_tests_cant": "the sums overflow only for energies far above those of the recorded events, and undefined behaviour need not show in a run", "anchors": ["firmware/simple_fullpfalgo.cpp:pfalgo3_full", "firmware/simple_fullpfalgo.cpp:tk2em_emalgo", "firmware/simple_fullpfalgo.cpp:tk2calo_sumtk", "firmware/simple_fullpfalgo.cpp:tk2calo_caloalgo"]}
{"id": "C73", "title": "The reference particle flow on every legal input", "statement": "On every legal input, also when transverse momentum sums leave 16 bits, pfalgo3_full_ref either overflows an int or returns one definite result: the particle-flow rules with the sums reduced to 16 bits, where a reduced sum of linked tracks that is not positive counts as no track, tracks of zero pt are skipped, the metric's scale is unbounded and the keep flag is honoured. It overflows exactly when four times the squared error of an EM cluster with a positive linked sum, the sum of squared errors of the tracks linked to a hadronic cluster, or one and a half times that sum when the linked sum is positive, exceeds 2^31-1. A photon of the reference never exceeds its cluster; a neutral hadron may, once the EM energy subtracted from its cluster wraps.", "quantifier": "all array lengths and contents with fields in the range of their types and non-negative pt and errors, all previous memory contents", "why_tests_cant": "the sums overflow only for energies far above those of the recorded events, and undefined behaviour need not show in a run", "anchors": ["simple_fullpfalgo_ref.cpp:pfalgo3_full_ref", "simple_fullpfalgo_ref.cpp:pfalgo3_em_ref", "simple_fullpfalgo_ref.cpp:best_match_with_pt_ref"]}
{"id": "C74", "title": "Mismatch reports name the slot and every field", "statement": "Each of the six comparison functions (had_equals, em_equals, track_equals, mu_equals and the two pf_equals) returns whether the two objects are the same: all their fields are equal, or both have zero pt. If they are the same it prints nothing. Otherwise it prints exactly one line, which names the kind of object and its index and gives every field of the reference next to the same field of the tested object, all numbers readable at full value.", "quantifier": "all pairs of objects with fields in the range of their types, all indices of absolute value below 2^32, all names without a line break", "why_tests_cant": "a passing test prints nothing, and a report with two swapped fields or a truncated number looks like any other report", "anchors": ["utils/test_utils.cpp:had_equals", "utils/test_utils.cpp:em_equals", "utils/test_utils.cpp:track_equals", "utils/test_utils.cpp:mu_equals", "utils/test_utils.cpp:pf_equals"]}
{"id": "C75", "title": "The console of the particle-flow test program tells what happened", "statement": "Under a compiler that lets the event reader's missing return statement yield true (C48), on every dump on which simple_fullpfalgo_test returns, its console output read line by line consists of, in this order and nothing else: for each event read, one line with run, lumi and event number; for each of its tested regions one line with the position of the region in its event and its numbers of tracks, EM clusters, hadronic clusters and muons, then (CTP7 build) the pattern counters of both serializers, then (in a build that compares) one line per mismatch between reference and firmware and either one line 'Passed' with the test number and the numbers of non-empty reference objects or one line 'Error' with the test number and the number of mismatches followed by all inputs and both outputs; at the end one line per output file with the number of patterns written to it. The exit code is 1 exactly if the last verdict is 'Error'.", "quantifier": "all dumps of well-formed events of any length, all three builds, with and without comparison, all array sizes, all multiplexing factors that divide the number of channels, all previous memory contents", "why_tests_cant": "the console is read by people; no test compares it with the data it reports", "anchors": ["simple_fullpfalgo_test.cpp:main", "utils/test_utils.cpp:pf_equals", "utils/DiscretePFInputs_IO.h:nextRegion", "utils/pattern_serializer.cpp:HumanReadablePatternSerializer", "utils/pattern_serializer.cpp:MP7PatternSerializer", "utils/pattern_serializer.cpp:CTP7PatternSerializer"]}
{"id": "C76", "title": "Moving an event moves the particle-flow output", "statement": "If every object of an event is displaced by the same amount, or mirrored in eta or in phi (coordinates that leave their 10 bits are brought back into them), pfalgo3_full and pfalgo3_full_ref give slot by slot the same candidates as before, displaced or mirrored in the same way: same pt, kind and z0, and the moved position for every candidate of non-zero pt. The moved event runs into an integer overflow exactly if the original one does. More generally this holds for every motion that keeps the distances between the objects.", "quantifier": "all array lengths and contents with fields in the range of their types and non-negative pt and errors, all displacements and mirrorings, all previous memory contents", "why_tests_cant": "a test compares a few events with one another; a hidden dependence on the absolute position (such as an origin taken for an object) shows only for particular positions", "anchors": ["firmware/simple_fullpfalgo.cpp:pfalgo3_full", "firmware/simple_fullpfalgo.cpp:dr2_int", "simple_fullpfalgo_ref.cpp:pfalgo3_full_ref", "firmware/data.h:HadCaloObj"]}
{"id": "C77", "title": "The order of the input slots matters only for ties", "statement": "Reordering the tracks changes neither the photons, nor the neutral hadrons, nor the muon candidates, and only reorders the charged candidates, provided no muon has two different tracks equally good for it. Reordering all four input arrays reorders the charged, photon and muon candidates and leaves the list of neutral hadrons (up to the choice among different clusters of equal pt) as it was, provided in no choice of a nearest or best object two different objects are equally good; copies of the same object, such as empty slots, do not matter. Where there are ties the order does decide: the muon, or the photons, may change. All this for the firmware and for the reference.", "quantifier": "all array lengths and contents with fields in the range of their types and non-negative pt and errors, all reorderings, all previous memory contents", "why_tests_cant": "the number of orders is factorial, and which slot an object arrives in is decided by the upstream sorting", "anchors": ["firmware/simple_fullpfalgo.cpp:pfalgo3_full", "firmware/simple_fullpfalgo.cpp:pick_closest", "simple_fullpfalgo_ref.cpp:pfalgo3_full_ref", "simple_fullpfalgo_ref.cpp:best_match_ref"]}
{"id": "C78", "title": "Particle flow is local", "statement": "A group of objects that is far from every other object of an event (squared distance at least 84 between track and em cluster, 525 between em and calorimeter cluster, 756 between track and calorimeter cluster, 2101 between muon and track) gets the same candidates in the event as when it is processed alone: in its own slots for charged, photon and muon candidates, and among the event's neutral hadrons (all of them kept). Two such events processed together give their outputs side by side, and the joint run overflows only if one of the two alone does. Asking for fewer neutral hadrons gives the head of the full list and changes nothing else. All this for pfalgo3_full and pfalgo3_full_ref; the distances are needed.", "quantifier": "all array lengths and contents with fields in the range of their types and non-negative pt and errors, all choices of slots for the group, all numbers of selected neutrals up to the number of clusters, all previous memory contents", "why_tests_cant": "a test event has one environment for each group; influence at a distance, for instance through a slot index or an accumulated sum, shows only in particular combinations", "anchors": ["firmware/simple_fullpfalgo.cpp:pfalgo3_full", "firmware/simple_fullpfalgo.cpp:ptsort_hwopt", "simple_fullpfalgo_ref.cpp:pfalgo3_full_ref"]}
{"id": "C79", "title": "What the PUPPI weight of a neutral depends on", "statement": "In simple_puppi_hw and simple_puppi_ref each neutral is treated as if it were the only one; charged candidates more than 256 units of z0 from the vertex, or farther than squared distance 8404 from every neutral, can be dropped without any effect; displacing or mirroring the event and moving the vertex with the tracks along the beam moves the output and changes neither weights nor overflows; the order of the charged candidates is irrelevant for the reference, and for the firmware irrelevant for the value whenever both orders give one. Where a single contribution reaches 2^31 the order can decide whether the firmware's sum overflows.", "quantifier": "all array lengths and contents, all weight tables (for the order: 1174 entries of 8 bits, pt of 16 bits), all vertices, displacements and reorderings", "why_tests_cant": "relations between runs on different inputs, for all inputs; the dependence of the overflow on the order needs particular contributions in a particular order", "anchors": ["puppi/firmware/simple_puppi.cpp:simple_puppi_hw", "puppi/simple_puppi_ref.cpp:simple_puppi_ref"]}
{"id": "C80", "title": "What the regionizer test program prints", "statement": "On every dump and for every content of uninitialised memory, a run of the regionizer test program that ends prints exactly: the configuration, one line per event tested or the complaint about the number of sectors that ends the run, and in the MP7 build the number of patterns written to each of the ten files (36 per test). The comparison of one test, given any regions, passes exactly when all regions of the firmware and of the reference hold the same objects; otherwise the console names the first differing slot of each kind in each region with the fields of both objects, the number of such reports, and every cluster of all sectors and regions.", "quantifier": "all dumps, all configurations, all memory contents; for the comparison all pairs of region arrays", "why_tests_cant": "the comparison never fails on the regions the program computes (C58), so no run of the program exercises it; the text ranges over all dumps", "anchors": ["regionizer/regionizer_test.cpp:main", "regionizer/regionizer_test.cpp:fill_stream", "utils/test_utils.cpp", "utils/pattern_serializer.cpp"]}
{"id": "C81", "title": "What the histogramming vertex test program prints", "statement": "On every dump and for every content of uninitialised memory, the test program of the histogramming vertex finder prints exactly: one line per test with the positions, slices and momentum sums of the simulated, full, reference and firmware vertex and their differences; then a summary with the numbers of tests whose vertices lie within 5 mm of each other and the number of disagreements between firmware and reference, or the complaint about the first event without twelve sectors; then 36 patterns per test for each of the four files. The positions printed are the nearest half millimetre to the floats of the dump.", "quantifier": "all dumps and memory contents; for the rounding all finite floats within 25.5 cm", "why_tests_cant": "the text ranges over all dumps; the exit code does not reveal the disagreements (C61), only the text does", "anchors": ["vertexing/bram_hist_vtx_test.cpp:main", "utils/pattern_serializer.cpp"]}
{"id": "C82", "title": "The debugging printout of the reference particle flow", "statement": "With the debugging printout on, the reference particle-flow algorithm prints exactly one account of what it did: its inputs in firmware and physical units, each muon's link, each track's EM cluster, the sums of linked tracks, the class of each EM cluster with its matching window, the electrons, the links and subtractions of EM clusters from hadronic ones, the tracks linked to what is left and the pt assigned to each neutral. The printout never changes a result nor makes a run undefined, it covers exactly the events processed while it is on, and it is off unless switched on.", "quantifier": "all physical events of fewer than 2^31 objects of each kind; for harmlessness all events and memory contents; all sequences of events and switches", "why_tests_cant": "the printout is the only view of the intermediate decisions and no test reads it; the claim ranges over all events and all histories of switching", "anchors": ["simple_fullpfalgo_ref.cpp:pfalgo3_full_ref,pfalgo3_em_ref,pfalgo3_full_ref_set_debug", "DiscretePFInputs.h"]}
{"id": "C83", "title": "Particle flow keeps no memory of earlier events", "statement": "What a particle-flow call returns depends only on the event it is given: whatever the output arrays, the intermediate arrays and the sorting buffer held before the call, the particles are the same, slot by slot, and a call that is undefined is undefined in the same way. For the wrapped firmware the output words are identical. (hwPtPuppi is not written by particle flow and keeps its old value.)", "quantifier": "all events, all previous memory contents; the firmware with hadronic pts that are not negative and no more neutral slots than hadronic inputs (both conditions shown necessary), the reference without conditions", "why_tests_cant": "a test sees one history of memory contents; a leak shows only with other stale contents, which differ between simulator, board and run", "anchors": ["firmware/simple_fullpfalgo.cpp:pfalgo3_full,ptsort_hwopt,mp7wrapped_pfalgo3_full", "simple_fullpfalgo_ref.cpp:pfalgo3_full_ref"]}
{"id": "C84", "title": "The pattern files of the particle-flow test replay", "statement": "Take the input and output pattern files that the particle-flow test program leaves, as characters. The words they hold for each test decode to that test's region, the wrapped firmware maps the input words to exactly the output words whatever its memory held, and the output words decode to the particles the program compared. This holds for the multiplexed files with zero or counting fillers, for the files without multiplexing, and on the CTP7 for the first 171 tests, beyond which nothing is written.", "quantifier": "all dumps, all multiplexing factors dividing the number of channels, all previous memory contents, hadronic pts not negative", "why_tests_cant": "the files are made to be replayed on hardware; no unit test reads them back, and the claim ranges over all dumps, factors and memory contents", "anchors": ["simple_fullpfalgo_test.cpp:main", "utils/pattern_serializer.h:MP7PatternSerializer,CTP7PatternSerializer", "firmware/simple_fullpfalgo.cpp:mp7wrapped_pfalgo3_full,mp7wrapped_unpack_in,mp7wrapped_pack_out"]}
{"id": "C85", "title": "Particle flow counts energy once", "statement": "The photons and neutral hadrons that particle flow returns together never carry more energy than was seen: the EM clusters that lie in no hadronic cluster, plus for each hadronic cluster its own energy or that of the EM clusters in it, whichever is larger. Behind this, every EM cluster that becomes a photon or electron is charged to at most one hadronic cluster (the nearest within range), every track is balanced against at most one cluster (an EM cluster exactly if it is an electron), a photon has exactly what its tracks leave of its cluster, and a neutral hadron exactly what EM clusters and tracks leave of its. Charged particles never carry more than the tracks.", "quantifier": "all physical events whose sums of pt fit their registers (shown necessary for the firmware), all memory contents, firmware and reference", "why_tests_cant": "double counting depends on the combination of links between tracks, EM and hadronic clusters; the space of events cannot be enumerated", "anchors": ["firmware/simple_fullpfalgo.cpp:pfalgo3_full,em2calo_link,tk2em_link,tk2calo_link_drdpt,tk2calo_sumtk,em2calo_sumem,tk2em_emalgo,tk2calo_caloalgo", "simple_fullpfalgo_ref.cpp:pfalgo3_full_ref,pfalgo3_em_ref"]}
{"id": "C86", "title": "The console of the PUPPI test program", "statement": "Printing changes nothing in the PUPPI test program: with its output it is undefined exactly when it is without. When it ends, its console, read line by line, announces every event and every region used, and holds for each test, in order and up to the fiftieth, its number, one line per neutral with its pt and its puppi pt from firmware and reference, and its number again; nothing else. The two puppi pts are equal and right.", "quantifier": "all dumps, all configurations, all numbers of tracks given to the vertex search, all tables of weights, all memory contents", "why_tests_cant": "no test reads the console, which is the only result of the program; the claim ranges over all dumps", "anchors": ["puppi/simple_pfpuppi_test.cpp:main", "utils/DiscretePFInputs_IO.h:nextRegion"]}
{"id": "C87", "title": "The console of the vertexing test program", "statement": "Whatever rand() returns, the test program of the simple vertex finders prints fifty lines; on each the vertex of the firmware and that of the reference read back as the same number, the centre of the first slice with the most pt, and the third number is the position drawn for the vertex. Numbers are printed with six digits: what is read back is within five parts in a million, and exact for integers of up to six digits, and no digit is superfluous: the last digit after a decimal point is not zero.", "quantifier": "all sequences of random numbers, all numbers printed", "why_tests_cant": "the program prints and checks nothing; one seed is one sequence", "anchors": ["vertexing/simple_vtx_test.cpp:main"]}
{"id": "C88", "title": "The summary of the vertex-finding test program", "statement": "On any dump whose events all have twelve sectors, the test program of the histogramming vertex finder ends by printing, for the full and the reference vertex, how many tests have it within 5 mm of the simulated one and how many have the two within 5 mm, each with the fraction of the tests, and the resolution in millimetres. Each fraction reads back as the quotient of the counts, each resolution as half the root of the mean square distance in half millimetres, to the three decimals printed.", "quantifier": "all dumps, all memory contents, all texts the C library prints for not-a-number", "why_tests_cant": "these numbers are what users of the program look at, no test checks them, and they pass through float, double, a square root and a conversion to decimals", "anchors": ["vertexing/bram_hist_vtx_test.cpp:main"]}
{"id": "C89", "title": "The values read from particles are those measured", "statement": "When tracks are filled from measured momenta, directions, charges and impact parameters that lie in one region, converted for the firmware, reconstructed and converted back, every charged particle reads (floatPt, floatEta, floatPhi, floatVtxEta, floatVtxPhi, floatDZ, intCharge) as the measurement of a track of its own, in track order, up to half a unit of the format. A neutral particle reads as charge 0, with the direction at the calorimeter as the one at the vertex. The floatDZ of a neutral particle and the floatPuppiW of any are indeterminate until they are set; setPuppiW and setFloatPt change only what they name.", "quantifier": "all measurements, numbers of tracks, calorimeter and muon inputs, memory contents", "why_tests_cant": "the values pass through two roundings to integers, two narrowings, the reconstruction and a division in binary32; no test reads a particle", "anchors": ["DiscretePFInputs.h:PFParticle", "DiscretePFInputs.h:PropagatedTrack::fill", "DiscretePFInputs.h:InputTrack::fill", "DiscretePF2Firmware.h", "Firmware2DiscretePF.h"]}
{"id": "C90", "title": "The histogramming vertex follows the tracks", "statement": "The vertex found lies within 4 counts of a track of at least 2 counts of pt, or there is none in range and it is bin 0 with sum 0. Displacing all tracks by k bins displaces the vertex by k bins with the same sum. One more track never lowers the sum, raises it by at most 100, and either leaves the vertex or moves it to itself; at the vertex it leaves it, and without weight or out of range it changes nothing. Redistributing the tracks over the sectors leaves the vertex unless a bin weighs over 511 (where it may change it); the order of sectors never matters. A bin whose tracks outweigh every other bin's is the vertex if they weigh at most 511. All of it holds of firmware and reference alike.", "quantifier": "all tracks of non-negative pt in up to 64 sectors, all displacements, additional tracks and redistributions", "why_tests_cant": "relates the results of pairs of runs on all inputs", "anchors": ["vertexing/firmware/bram_hist_vtx.cpp:bhv_find_pv", "vertexing/firmware/bram_hist_vtx.cpp:bhv_add_track", "vertexing/bram_hist_vtx_ref.cpp:bhv_find_pv_ref"]}
{"id": "C91", "title": "The regionizers have no preferred sector, half or order of arrival", "statement": "Each event has one division into regions, the same for firmware and reference and independent of what the work area, the output arrays and uninitialised memory held. Turning the detector by two sectors turns the regions by one; mirroring it in eta exchanges the outer slices and mirrors the objects. A region depends only on the objects with pt in its eta slice of its three sectors. The order in which these arrive on the fibres matters only among objects of one sector with equal pt, and never for the pts in the region. The muon regions repeat after two muon sectors, and mirror in the same way.", "quantifier": "all events on the fibres, capacities, numbers of fibres per sector, memory contents, rotations and reorderings", "why_tests_cant": "relates the results of pairs of runs on all inputs", "anchors": ["regionizer/firmware/regionizer.cpp:regionize_hadcalo", "regionizer/regionizer_ref.cpp:regionize_hadcalo_ref", "regionizer/regionizer_ref.cpp:regionize_muon_ref", "regionizer/firmware/regionizer.h:IN_SECTOR_OF_REGION"]}
{"id": "C92", "title": "The simple vertex follows the tracks", "statement": "For tracks of non-negative pt with z0 below 300 and few enough for the sums, the vertex of the simple finder depends on the tracks alone: not on their order, nor on what the output held. It lies in the slice of some track with pt, or all its fields are 0 because no track has pt. When every track moves by the same whole number of slices within the regular range, the vertex moves with them and keeps its sum, multiplicity and quality. One more track raises the sum by at most 200 and moves the vertex only to its own slice; a track of no pt changes neither position nor sum. The optimised finder does not depend on the order of the tracks either.", "quantifier": "all track arrays, displacements, added tracks, reorderings and previous outputs", "why_tests_cant": "relates the results of pairs of runs on all inputs", "anchors": ["vertexing/simple_vtx_ref.cpp:simple_vtx_ref", "vertexing/firmware/simple_vtx.cpp:simple_vtx_hwopt"]}
{"id": "C93", "title": "The pattern files of the vertex-finder and regionizer tests replay", "statement": "Take the pattern files that the test programs of the histogramming vertex finder and of the regionizers leave, as characters. In the vertex files the words of each test decode to its tracks; filling and scanning the firmware's histograms of these tracks gives exactly the sum and bin in the output file, flagged valid at the first clock of the test only, and the histogram contents in the debug file; the input debug file shows the bin and half the pt that the firmware uses for each track. In the regionizer files the words of each test decode to the objects on the fibres and to the objects of the 18 regions, and the regionizers turn the former into the latter whatever their memory held.", "quantifier": "all dumps, all previous contents of the memory of the programs and of the regionizers, all board names without a newline, configurations whose regions fit on the board", "why_tests_cant": "the files are made to be replayed on hardware; no unit test reads them back, and the claim ranges over all dumps and memory contents", "anchors": ["vertexing/bram_hist_vtx_test.cpp:main", "regionizer/regionizer_test.cpp:main", "utils/pattern_serializer.h:MP7PatternSerializer", "firmware/mp7pf_encoding.h"]}
{"id": "C94", "title": "The test programs are reproducible: nothing they report depends on what was in memory", "statement": "Run twice on the same dump, the particle-flow, PUPPI, regionizer and vertex-finder test programs give the same exit code after the same tests, print or write the same words and files, or are undefined in the same way, whatever the arrays of the programs, the intermediate arrays of the algorithms, the sorting buffers and the static buffers held before. For particle flow this needs clusters without negative pt: with negative ones the test passes and the pattern file shows what the sorting buffer held.", "quantifier": "all dumps of well-formed events (particle flow: no negative hadronic pt in the tested regions, no more neutral slots than hadronic inputs), all pairs of memory contents, all builds", "why_tests_cant": "a test runs in one memory; the claim compares all pairs of memory contents on all dumps", "anchors": ["simple_fullpfalgo_test.cpp:main", "puppi/simple_pfpuppi_test.cpp:main", "regionizer/regionizer_test.cpp:main", "vertexing/bram_hist_vtx_test.cpp:main", "firmware/simple_fullpfalgo.cpp:ptsort_hwopt"]}
{"id": "C95", "title": "The pattern files of a program that is stopped hold the beginning of what a complete run would have written", "statement": "If a program is killed at any point, and only some of the characters it has written have reached the disk, every complete line of its MP7 pattern file is the line with that number of the complete run's file: the frame number and the words of every link as the layout prescribes for the whole history of events. So every word of an event is found under its link as soon as its line is complete. The same holds of the CTP7 memory image, of the human-readable file, and of the text dumps of the regionizer and vertex-finder tests. Killed while the MP7 serializer flushes its last events on closing, the file holds the leading lines of the flushed file.", "quantifier": "all constructor arguments, all histories of events, all points at which the program is stopped (any number of calls completed) and all numbers of characters on disk", "why_tests_cant": "the claim quantifies over every crash point and every number of buffered characters of every history; tests read complete files", "anchors": ["utils/pattern_serializer.cpp:MP7PatternSerializer", "utils/pattern_serializer.cpp:CTP7PatternSerializer", "utils/pattern_serializer.cpp:HumanReadablePatternSerializer", "regionizer/regionizer_test.cpp:main", "vertexing/bram_hist_vtx_test.cpp:main"]}
{"id": "C96", "title": "The regionizers neither invent nor duplicate objects: each goes once to every region it belongs to", "statement": "A region's output holds each object at most as often as the sectors of that region received it in its eta slice, and all of them exactly once each when they fit in the sector and region buffers. So for any quantity summed over the objects (their number, their pt, the number of those with a given payload), the sum over the regions is never more than the sum over the arrivals with each object counted once for every region it belongs to (twice for a sector shared by two regions, twice again where two eta slices overlap), and is equal to it when everything fits. This holds of the reference and of the firmware regionizer and of the muon regionizer. Through the merging of the twelve muon sectors into four, no muon of an event with at most as many muons as there are slots is lost or copied too often.", "quantifier": "all capacities, all inputs on all fibres, all initial contents of the work and output arrays, all quantities; for muons, all in-range phi", "why_tests_cant": "the multiset of every region must match for every distribution of objects, ties and overlaps included; a test samples a few events and does not see an object counted twice", "anchors": ["regionizer/regionizer_ref.cpp:regionize_ref", "regionizer/regionizer_ref.cpp:regionize_muon_ref", "regionizer/regionizer_ref.cpp:merge_muon_in", "regionizer/firmware/regionizer.cpp:regionize_hadcalo"]}
{"id": "C97", "title": "Soft objects have no influence on harder ones in the regionizers", "statement": "For any threshold, the objects of a region above it, and the slots they occupy, depend only on the objects above it in the region's sectors and their order of arrival: adding, removing or changing softer objects, however many, never moves or displaces them. The same holds of the muon regions, also from the twelve muon sectors through their merging into four. More slots per region only add slots at the end. If a sector may keep as many objects as a region, the region holds the hardest of all the objects offered to it by its three sectors, ties in order of sector and arrival; this matters where the regions are smaller than the sector buffers (5 calorimeter objects in the default build). A muon region always holds the hardest of the muons on the four fibres that belong in it; but the fibres share their slots among three sectors, so a muon alone in its region can still be lost to harder ones that belong elsewhere.", "quantifier": "all pairs of events, thresholds, capacities, numbers of fibres per sector, regions and memory contents", "why_tests_cant": "relates the results of pairs of runs on all events; overflow of a sector or region buffer by soft objects must be harmless for every mixture", "anchors": ["regionizer/regionizer_ref.cpp:regionize_ref", "regionizer/regionizer_ref.cpp:regionize_muon_ref", "regionizer/regionizer_ref.cpp:merge_muon_in", "regionizer/firmware/regionizer.cpp:regionize_hadcalo"]}
{"id": "C98", "title": "From the fibres to the candidates, firmware and reference agree", "statement": "For every event on the fibres whose fields are in range, the regionizers return, and what they write for each of the 18 regions is a legal input of particle flow: arrays of the declared sizes, no negative transverse momentum even if the fibres carry one, and every track slot without transverse momentum cleared. On it particle flow either completes or overflows an int; nothing else can go wrong. The candidates obtained with the firmware regionizer and firmware particle flow agree with those of the references, unless in that region a 16-bit sum wraps to a negative number, an EM-like hadronic cluster is linked to a non-electromagnetic EM cluster, or a track of error 1 is one unit above a cluster; the fourth difference of C01 (an error in an empty track slot) cannot reach particle flow through the regionizer. None of this can happen, and both run to the end, if on the fibres of every three neighbouring sectors the tracks and the EM clusters sum up to numbers of sixteen bits, their errors are small, no track has an error of 1 and no hadronic cluster is flagged EM-like. Without the last condition they can disagree. The same holds of the neutral candidates after PUPPI (where the tracks of three neighbouring sectors must sum up to at most 1448 for its sums to fit). For the configurations of data.h each region fits on the words of the MP7 links, and packing it, running the wrapped algorithm and unpacking gives the candidates of particle flow on the region itself, or the same failure. Every charged candidate is a track that arrived on a fibre, with its transverse momentum, z0 and direction in the detector. Every neutral hadron of the firmware points where a hadronic cluster points that arrived on a fibre, whatever wraps around; every photon where an EM cluster does, with at most its transverse momentum, if the tracks of the region sum up to a 16-bit number (otherwise a photon may appear without any EM cluster).", "quantifier": "all events on the fibres, build configurations, regions, memory contents, PUPPI tables and vertices", "why_tests_cant": "composes several functions over all their inputs; a mismatch between the output range of one and the input domain of the next shows on rare events only", "anchors": ["regionizer/firmware/regionizer.cpp:regionize_hadcalo", "regionizer/regionizer_ref.cpp:regionize_track_ref", "firmware/simple_fullpfalgo.cpp:pfalgo3_full", "simple_fullpfalgo_ref.cpp:pfalgo3_full_ref", "puppi/firmware/simple_puppi.cpp:simple_puppi_hw", "puppi/simple_puppi_ref.cpp:simple_puppi_ref"]}
{"id": "C99", "title": "No soft track and no isolated cluster is lost between the fibres and the candidates", "statement": "For every event on the fibres, in every region that an object's sector and eta belong to, and for the firmware and the reference particle flow alike: a track below the cut on unlinked tracks (40, or 80 if its quality is tight) is a charged candidate with its transverse momentum, z0 and direction; an EM cluster without a track near it is a photon of exactly its transverse momentum in its direction; a hadronic cluster without a track or an EM cluster near it is a neutral hadron of exactly its transverse momentum in its direction. The only other outcome is that there is no room: more objects of the same sector and slice that are at least as hard than the sector keeps (9 tracks, 7 clusters), a region all of whose slots hold such objects, or NSELCALO neutral hadrons that are. A harder track without a cluster is dropped, and so is an EM-like hadronic cluster without an electromagnetic part.", "quantifier": "all events on the fibres, build configurations, regions, objects and memory contents", "why_tests_cant": "composes regionizer and particle flow over all their inputs; the loss of an object depends on all other objects of its sector and region", "anchors": ["regionizer/regionizer_ref.cpp:regionize_track_ref", "regionizer/regionizer_ref.cpp:regionize_emcalo_ref", "regionizer/regionizer_ref.cpp:regionize_hadcalo_ref", "firmware/simple_fullpfalgo.cpp:pfalgo3_full", "simple_fullpfalgo_ref.cpp:pfalgo3_full_ref"]}
{"id": "C100", "title": "The chain from the fibres to the candidates prefers no half and no sector, and a region sees only its neighbourhood", "statement": "For every event on the fibres, for the firmware and the reference particle flow behind the regionizers: mirroring the event at eta = 0 mirrors the candidates of every region into the region on the other side, slot by slot, and both runs are defined or neither is; turning the clusters and tracks by k sixths of a turn gives exactly the candidates of the region k further on, where the muons of the two regions are the same, and turning everything by half a turn always does; clusters and tracks outside the three sectors of a region have no influence on its candidates; neither has the order in which the objects of a sector arrive, nor on which of the two fibres of its sector a track does, if no two objects of one kind, sector and slice are equally hard (with equally hard ones it has).", "quantifier": "all pairs of events on the fibres, angles, build configurations, regions and memory contents", "why_tests_cant": "relates two runs over all inputs; a test fixes the event and cannot see a preference for one sector or an influence of a distant object on other events", "anchors": ["regionizer/regionizer_ref.cpp:regionize_ref", "regionizer/regionizer_ref.cpp:regionize_muon_ref", "firmware/simple_fullpfalgo.cpp:pfalgo3_full", "simple_fullpfalgo_ref.cpp:pfalgo3_full_ref"]}
{"id": "C101", "title": "The chain from the fibres to the candidates creates no energy", "statement": "For every event on the fibres, with the firmware or the reference particle flow behind the regionizers: the charged candidates of all eighteen regions together have no more transverse momentum than the tracks that arrived, each counted once for every region it belongs to (an even sector is shared by two regions, an overlap in eta by two slices), and exactly as much if every track is below the cut for tracks without a cluster and there is room for all of them; if no sum exceeds its type, the photons together have no more than the EM clusters and the neutral hadrons no more than the hadronic clusters, counted the same way. No sum does, and both particle flows run to the end on every region, if on the fibres of every three neighbouring sectors the tracks and the EM clusters sum up to numbers of sixteen bits and their errors are small. Then the weighted neutral candidates after the firmware PUPPI keep the budget too. Without any such condition the firmware makes photons in an event without any cluster.", "quantifier": "all events on the fibres, build configurations and memory contents", "why_tests_cant": "a sum over all regions and all inputs; double counting or a wrapped sum shows only for objects at a boundary or for large momenta", "anchors": ["regionizer/regionizer_ref.cpp:regionize_ref", "firmware/simple_fullpfalgo.cpp:pfalgo3_full", "simple_fullpfalgo_ref.cpp:pfalgo3_full_ref"]}
{"id": "C102", "title": "Muon candidates of the chain stand for muons and tracks that arrived, and none is lost", "statement": "For every event on the fibres, with the firmware or the reference particle flow behind the regionizers: every muon candidate of a region is a track that arrived on a fibre, it is near a muon that arrived on a muon fibre (squared distance below 2101, transverse momenta differing by less than half of the muon's), and it is in the list of charged candidates as well. Conversely a muon with such a track near it becomes a muon candidate, with that track or one that matches the muon's transverse momentum at least as well, unless the track is crowded out of its sector or either of them out of the region by harder ones.", "quantifier": "all events on the fibres, build configurations, regions, muons and tracks, and memory contents", "why_tests_cant": "holds for every position of muon and track relative to the boundaries of four muon sectors, twelve track sectors and eighteen regions, and for every competition between tracks; a test samples a few", "anchors": ["regionizer/regionizer_ref.cpp:regionize_muon_ref", "regionizer/regionizer_ref.cpp:regionize_track_ref", "firmware/simple_fullpfalgo.cpp:spfph_mualgo", "simple_fullpfalgo_ref.cpp:pfalgo3_full_ref"]}
