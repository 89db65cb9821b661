(** What vertexing/bram_hist_vtx_test.cpp prints on the console, with the
    counters that only feed it.  The functions are those of BhvTest.v with the
    text they print; text is a list of characters as in Console.v. *)
From Coq Require Import Ascii String.
From Verif Require Import Base Data SerText Printf Discrete Convert DiscreteIO EventLoop Regionizer Bhv BhvTest Console.
Local Open Scope string_scope.
Local Open Scope list_scope.
Local Open Scope Z_scope.

(** bram_hist_vtx_test.cpp:45-46 [z0_t pv = round(x * Z0_SCALE)]: the float
    product rounds 20 m to 24 bits as in DiscreteIO.zpv; round goes to the
    nearest integer, halves away from zero; the conversion to ap_int<10> wraps.
    [special b]: the value ap_int's conversion gives for an infinite or NaN
    product (not modelled). *)
Definition zround (special : Z -> Z) (b : Z) : Z :=
  let m := 20 * f32_m b in let e := f32_e b in
  let k := Z.max 0 (Z.log2 m - 23) in
  let m' := rne m k in
  if (f32_expo b =? 255) || (m' * 2 ^ (e + k + 149) >=? 2 ^ (128 + 149)) then special b else
  let t := if e + k >=? 0 then m' * 2 ^ (e + k) else (2 * m' + 2 ^ (- (e + k))) / 2 ^ (- (e + k) + 1) in
  z0_t (if f32_sign b then - t else t).

(** bram_hist_vtx_test.cpp:19-21: ngood, ntot, ncmssw_good and nagree are
    unsigned; resol and cmssw_resol are doubles that only ever hold sums of
    squares of integers up to 10, which are exact *)
Record counts := mkCounts { k_good : Z; k_tot : Z; k_cmssw : Z; k_agree : Z; k_resol : Z; k_cmssw_resol : Z }.

(** [t++] on an unsigned int *)
Definition incr (n : Z) : Z := wrapU 32 (n + 1).
(** bram_hist_vtx_test.cpp:114-119: the line of a test and the counters.  The
    differences of two ap_int<10> are ap_int<11>, so exact. *)
Definition bhv_report (special : Z -> Z) (ev : event) (t : btest) (k : counts) : list ascii * counts :=
  let gen := zround special (ev_genz0 ev) in let cmssw := zround special (ev_z0 ev) in
  let '(b_ref, s_ref, z_ref) := bt_ref t in let '(b_hw, s_hw, z_hw) := bt_hw t in
  let text := printf_nl "GEN PV %+4d    CMSSW PV %+4d  bin %3d :  REF %+4d  bin %3d, ptsum %8d, diff %+4d :  HW %+4d  bin %3d, ptsum %8d diff %+4d  :  MATCH %+1d"
    [gen; cmssw; zb_bin (fetch_bin_ref cmssw); z_ref; b_ref; s_ref; z_ref - gen; z_hw; b_hw; s_hw; z_hw - gen; z_hw - z_ref] in
  let k := if Z.abs (z_ref - gen) <=? 10 then mkCounts (incr (k_good k)) (k_tot k) (k_cmssw k) (k_agree k) (k_resol k + (gen - z_ref) ^ 2) (k_cmssw_resol k) else k in
  let k := mkCounts (k_good k) (incr (k_tot k)) (k_cmssw k) (k_agree k) (k_resol k) (k_cmssw_resol k) in
  let k := if Z.abs (gen - cmssw) <=? 10 then mkCounts (k_good k) (k_tot k) (incr (k_cmssw k)) (k_agree k) (k_resol k) (k_cmssw_resol k + (gen - cmssw) ^ 2) else k in
  let k := if Z.abs (z_ref - cmssw) <=? 10 then mkCounts (k_good k) (k_tot k) (k_cmssw k) (incr (k_agree k)) (k_resol k) (k_cmssw_resol k) else k in
  (text, k).
(** bram_hist_vtx_test.cpp:35-120 with the text *)
Definition bhv_body_say (special : Z -> Z) (test : nat) (st : bstate * counts * list ascii) (ev : event) : res (bstate * counts * list ascii * option Z) :=
  let '(st, k, text) := st in
  do (st1, code) <- bhv_body test st ev;
  match code with
  | Some x => Ok (st1, k, text ++ printf_nl "ERROR: Mismatching number of input regions: %lu" [Z.of_nat (length (ev_regions ev))], Some x)
  | None => do t <- rd (bs_tests st1) (length (bs_tests st)); let (u, k) := bhv_report special ev t k in Ok (st1, k, text ++ u, None)
  end.
(** bram_hist_vtx_test.cpp:126-128; [ratio n d]: %.3f of float(n)/d;
    [resolution s n]: %5.3f of 0.5*sqrt(s/n) (floating point not modelled) *)
Definition bhv_summary (ratio resolution : Z -> Z -> list ascii) (k : counts) (nerr : Z) : list ascii :=
  printf "Good matches: CMSSW %4d/%4d = " [k_cmssw k; k_tot k] ++ ratio (k_cmssw k) (k_tot k) ++
  printf "  REF %4d/%4d = " [k_good k; k_tot k] ++ ratio (k_good k) (k_tot k) ++
  printf "  (REF vs CMSSW: %4d/%4d = " [k_agree k; k_tot k] ++ ratio (k_agree k) (k_tot k) ++
  printf_nl "). ERRORS: %d" [nerr] ++
  chars "Resolution: CMSSW: " ++ resolution (k_cmssw_resol k) (k_cmssw k) ++ chars " mm   REF " ++ resolution (k_resol k) (k_good k) ++ chars " mm" ++ [newline].
(** the destructors of the serializers (utils/pattern_serializer.cpp:26-33), in
    the reverse order of bram_hist_vtx_test.cpp:27-30 *)
Definition bhv_saved (tests : list btest) (old : list (list Tk)) : res (list ascii) :=
  do (((w1, w2), w3), w4) <- bhv_words tests old;
  do a <- mp7_count 2 1 w1; do b <- mp7_count 1 0 w2; do c <- mp7_count_links 3 1 0 w3; do d <- mp7_count 1 0 w4;
  Ok (saved d "MP7" "mp7_output_debug.txt" ++ saved c "MP7" "mp7_output.txt" ++ saved b "MP7" "mp7_input_debug.txt" ++ saved a "MP7" "mp7_input.txt").
(** bram_hist_vtx_test.cpp:9-130: the exit code, nerr, the tests made and the
    text; [arr], [tmp] and [old] (track_in_transposed) are uninitialised memory.
    Line 35 returns past lines 126-128. *)
Definition bhv_main_say (special : Z -> Z) (ratio resolution : Z -> Z -> list ascii) (tail : res bool) (g : Z) (arr : list (list Tk)) (tmp : list Tk) (old : list (list Tk))
    (bytes : option (list Z)) : res (Z * Z * list btest * list ascii) :=
  do s <- inputs_open g bytes;
  do (((st, k), text), code) <- event_loop tail (bhv_body_say special) BHV_NTEST 1 (mkBs arr tmp 0 [], mkCounts 0 0 0 0 0 0, []) s;
  do t <- bhv_saved (bs_tests st) old;
  match code with
  | Some x => Ok (x, bs_nerr st, bs_tests st, text ++ t)
  | None => Ok (0, bs_nerr st, bs_tests st, text ++ bhv_summary ratio resolution k (bs_nerr st) ++ t)
  end.
