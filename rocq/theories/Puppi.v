(** Model of puppi/firmware/simple_puppi.cpp and puppi/simple_puppi_ref.cpp.
    The weight table (filled from floating-point formulas in
    simple_puppi.h:13-44) is an argument [tab]: the ap_uint<8> contents after
    lut_puppiweight_init; nothing is assumed about it unless a theorem says so. *)
From Verif Require Import Base Data PFHw.

(** simple_puppi.h:9 *)
Definition PUPPI_TABLE_SIZE : Z := 1174.
(** simple_puppi.cpp:41-42, simple_puppi_ref.cpp:9,17 *)
Definition DZMAX : Z := 256.
Definition DR2MAX : Z := 8404.

(** simple_puppi.cpp:14-18 *)
Definition puppiweight (tab : list Z) (i : Z) : res Z := rdZ tab i.

(** simple_puppi.cpp:27-32, entry i of the ap_uint<16> table *)
Definition lut_shift15_invert (i : Z) : Z := wrapU 16 (if i =? 0 then 32768 else 32768 / i).
(** simple_puppi.cpp:33-37: num : ap_uint<17>, den : ap_uint<9> (so the table
    access is always inside its 512 entries); the ap_uint<33> product is
    converted to int by truncation *)
Definition lut_shift15_divide (num den : Z) : Z :=
  wrapS 32 (wrapU 17 num * lut_shift15_invert (wrapU 9 den)).

(** simple_puppi.cpp:57-62 *)
Definition pt2_shift (c : PFCh) : Z :=
  let mypt2 := Z.shiftr (c_pt c * c_pt c) 5 in
  wrapU 17 (if mypt2 <? 131071 then mypt2 else 131071).

(** simple_puppi.cpp:66-77: loop over tracks for one neutral *)
Definition hw_sum (pfch : list PFCh) (Z0 : Z) (n : PFNe) : res Z :=
  foldM (fun sum c =>
    if (Z0 - c_z0 c >? DZMAX) || (Z0 - c_z0 c <? - DZMAX) then Ok sum
    else let dr2 := dr2_int (c_eta c) (c_phi c) (n_eta n) (n_phi n) in
         if dr2 <=? DR2MAX
         then i32 (sum + lut_shift15_divide (pt2_shift c) (wrapU 9 (Z.shiftr dr2 5)))
         else Ok sum) pfch 0.

(** simple_puppi.cpp:81-94: one neutral; [e] = eToAlphas[in], an ap_uint<32> *)
Definition hw_apply (tab : list Z) (n : PFNe) (e : Z) : res PFNe :=
  let set p := mkNe (n_pt n) (n_eta n) (n_phi n) (n_id n) p in
  if e <? PUPPI_TABLE_SIZE then
    do w <- (if e <=? 0 then Ok 0 else rmap (wrapU 8) (puppiweight tab e));
    Ok (set (pt_t (wrapS 32 (Z.shiftr (n_pt n * w) 8))))
  else Ok (set (n_pt n)).

(** simple_puppi.cpp:39-95.  The charged array is only read. *)
Definition simple_puppi_hw (tab : list Z) (pfch : list PFCh) (pfallne : list PFNe) (Z0 : Z) : res (list PFNe) :=
  do eToAlphas <- mapM (fun n => do sum <- hw_sum pfch Z0 n; Ok (wrapU 32 (Z.shiftr sum 10))) pfallne;
  mapM (fun '(n, e) => hw_apply tab n e) (combine pfallne eToAlphas).

(** simple_puppi_ref.cpp:21-33.  The [int] product of line 30 and the sum may
    overflow; hwPt*hwPt and hwPt*weight are ap_int products assigned to int. *)
Definition ref_sum (pfch : list PFCh) (Z0 : Z) (n : PFNe) : res Z :=
  foldM (fun sum c =>
    if (Z0 - c_z0 c >? DZMAX) || (Z0 - c_z0 c <? - DZMAX) then Ok sum
    else let dr2 := dr2_int (c_eta c) (c_phi c) (n_eta n) (n_phi n) in
         if dr2 <=? DR2MAX
         then let dr2short := wrapU 9 (Z.shiftr dr2 5) in
              let pt2 := wrapS 32 (c_pt c * c_pt c) in
              let term := 32768 / (if dr2short >? 0 then dr2short else 1) in
              do term <- i32 (Z.min (Z.shiftr pt2 5) 131071 * term);
              i32 (sum + term)
         else Ok sum) pfch 0.

(** simple_puppi_ref.cpp:35-51: the weight *)
Definition ref_weight (tab : list Z) (eToAlpha : Z) : res Z :=
  if eToAlpha >? 0 then
    if eToAlpha <=? 0 then Ok 0
    else if eToAlpha >=? 1174 then Ok 256
    else let index := if eToAlpha >=? PUPPI_TABLE_SIZE then PUPPI_TABLE_SIZE else eToAlpha in
         rmap (wrapU 8) (rdZ tab index)
  else Ok 0.

(** simple_puppi_ref.cpp:18-55 *)
Definition simple_puppi_ref (tab : list Z) (pfch : list PFCh) (pfallne : list PFNe) (Z0 : Z) : res (list PFNe) :=
  mapM (fun n =>
    if n_pt n =? 0 then Ok n
    else do sum <- ref_sum pfch Z0 n;
         do weight <- ref_weight tab (Z.shiftr sum 10);
         let pT_new := wrapS 32 (Z.shiftr (n_pt n * weight) 8) in
         Ok (mkNe (n_pt n) (n_eta n) (n_phi n) (n_id n) (pt_t pT_new))) pfallne.
