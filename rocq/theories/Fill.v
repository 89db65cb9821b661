(** Filling the objects of DiscretePFInputs.h from floating point, and reading
    them as floating point. *)
From Coq Require Import QArith Qround Qabs.
From Verif Require Import Base Data Discrete.
Local Open Scope Z_scope.

(** ** IEEE 754 arithmetic
    A finite float is the rational number it stands for (the sign of zero is
    not kept, nor that of infinities). *)
Inductive fl := Fin (x : Q) | Inf | NaN.
(** nearest integer, ties to even *)
Definition rneQ (x : Q) : Z :=
  let f := Qfloor x in
  match ((x - inject_Z f) ?= (1 # 2))%Q with Lt => f | Gt => f + 1 | Eq => if Z.even f then f else f + 1 end.
(** the exponent of x > 0: 2^e <= x < 2^(e+1) *)
Definition expoQ (x : Q) : Z :=
  let l := Z.log2 (Qnum x) - Z.log2 (Zpos (Qden x)) in if Qle_bool ((2 # 1) ^ l)%Q x then l else l - 1.
(** to p bits, lowest exponent emin (gradual underflow) *)
Definition rnd (p emin : Z) (x : Q) : Q :=
  if Qeq_bool x 0 then 0%Q else
  let e := Z.max (expoQ (Qabs x) - (p - 1)) emin in (inject_Z (rneQ (x * (2 # 1) ^ (- e))) * (2 # 1) ^ e)%Q.
Definition fl_round (p emin emax : Z) (x : Q) : fl :=
  let r := Qred (rnd p emin x) in if Qle_bool ((2 # 1) ^ emax)%Q (Qabs r) then Inf else Fin r.
(** float and double *)
Definition f32 : Q -> fl := fl_round 24 (-149) 128.
Definition f64 : Q -> fl := fl_round 53 (-1074) 1024.
(** float times, or divided by, a positive constant *)
Definition fmul (x : fl) (c : Q) : fl := match x with Fin a => f32 (a * c) | _ => x end.
Definition fdiv (x : fl) (c : Q) : fl := match x with Fin a => f32 (a / c) | _ => x end.
(** 1/x: the int is converted to float *)
Definition finv (x : fl) : fl := match x with Fin a => if Qeq_bool a 0 then Inf else f32 (1 / a) | Inf => Fin 0 | NaN => NaN end.
(** round(): to nearest, halves away from zero (the float is converted to
    double, and back in std::round's case: no difference) *)
Definition roundQ (x : Q) : Z := if Qle_bool 0 x then Qfloor (x + (1 # 2)) else - Qfloor (- x + (1 # 2)).
(** conversion of an integral floating-point number to an integer type:
    undefined unless the type has the value *)
Definition to_int (fits : Z -> bool) (x : fl) : res Z :=
  match x with Fin a => let n := roundQ a in if fits n then Ok n else UB BadConversion | _ => UB BadConversion end.
Definition is_i16 (n : Z) : bool := (- 2 ^ 15 <=? n) && (n <? 2 ^ 15).
Definition is_u16 (n : Z) : bool := (0 <=? n) && (n <? 2 ^ 16).
Definition is_i32 (n : Z) : bool := (- 2 ^ 31 <=? n) && (n <? 2 ^ 31).
Definition round_i16 : fl -> res Z := to_int is_i16.
Definition round_u16 : fl -> res Z := to_int is_u16.
Definition round_i32 : fl -> res Z := to_int is_i32.

(** ** The constants *)
Definition fin (x : fl) : Q := match x with Fin a => a | _ => 0%Q end.
(** math.h's M_PI, 3.14159265358979323846, as a double *)
Definition M_PI : Q := fin (f64 (314159265358979323846 # 100000000000000000000)).
(** DiscretePFInputs.h:35-38; 180./M_PI and the product with ETAPHI_FACTOR are doubles *)
Definition PT_SCALE : Q := 4 # 1.
Definition ETAPHI_FACTOR : Q := 4 # 1.
Definition ETAPHI_SCALE : Q := fin (f32 (fin (f64 (ETAPHI_FACTOR * fin (f64 ((180 # 1) / M_PI)))))).
Definition PHI_WRAP : Z := 1440.
(** DiscretePFInputs.h:97-101 *)
Definition INVPT_SCALE : Q := 20000 # 1.
Definition VTX_PHI_SCALE : Q := fin (f32 (fin (f64 (1 / fin (f64 (25 # 10000000)))))).
Definition VTX_ETA_SCALE : Q := fin (f32 (fin (f64 (1 / fin (f64 (1 # 100000)))))).
Definition Z0_SCALE : Q := 20 # 1.
Definition VTX_ETA_1p3 : Z := Qfloor (fin (f64 (fin (f64 (13 # 10)) * VTX_ETA_SCALE))).
(** DiscretePFInputs.h:260 *)
Definition PUPPI_SCALE : Q := 100 # 1.

(** ** Filling *)
(** int16_t(round(phi * ETAPHI_SCALE)) % PHI_WRAP *)
Definition fill_phi (phi : fl) : res Z := do n <- round_i16 (fmul phi ETAPHI_SCALE); Ok (Z.rem n PHI_WRAP).
Definition fill_pt (pt : fl) : res Z := round_i16 (fmul pt PT_SCALE).
Definition fill_eta (eta : fl) : res Z := round_i16 (fmul eta ETAPHI_SCALE).
(** CaloCluster::fill, DiscretePFInputs.h:41-50; flags is an unsigned int *)
Definition clu_fill (pt empt pterr eta phi : fl) (em : bool) (flags : Z) : res Clu :=
  do p <- fill_pt pt; do ep <- fill_pt empt; do pe <- fill_pt pterr; do et <- fill_eta eta; do ph <- fill_phi phi;
  Ok (mkClu p ep pe et ph (wrapU 16 flags) em false).
(** InputTrack::fillInput, DiscretePFInputs.h:104-111: hwChi2 and hwStubs keep
    their values *)
Definition itk_fill (pt eta phi : fl) (charge : Z) (dz : fl) (flags : Z) (old : ITk) : res ITk :=
  do ip <- round_u16 (fmul (finv pt) INVPT_SCALE); do ve <- round_i32 (fmul eta VTX_ETA_SCALE); do vp <- round_i32 (fmul phi VTX_PHI_SCALE); do z <- round_i16 (fmul dz Z0_SCALE);
  Ok (mkITk ip ve vp (0 <? charge) z (it_chi2 old) (it_stubs old) (wrapU 16 flags)).
(** PropagatedTrack::fillPropagated, DiscretePFInputs.h:158-166: the flags are
    ignored, fromPV keeps its value *)
Definition ptk_fill (pt pterr calopterr eta phi : fl) (flags : Z) (old : PTk) : res PTk :=
  do p <- fill_pt pt; do pe <- fill_pt pterr; do ce <- fill_pt calopterr; do et <- fill_eta eta; do ph <- fill_phi phi;
  Ok (mkPTk (pt_in old) p pe ce et ph false false (pt_frompv old)).
(** Muon::fill, DiscretePFInputs.h:210-217 *)
Definition dmu_fill (pt eta phi : fl) (charge : Z) (flags : Z) : res DMu :=
  do p <- fill_pt pt; do et <- fill_eta eta; do ph <- fill_phi phi; Ok (mkDMu p et ph (wrapU 16 flags) (0 <? charge)).
(** PFParticle::setPuppiW, DiscretePFInputs.h:270-272 *)
Definition set_puppiw (w : fl) : res Z := round_u16 (fmul w PUPPI_SCALE).

(** ** Reading: the int is converted to float, then divided *)
Definition of_int (n : Z) : fl := f32 (inject_Z n).
(** floatPt, floatEmPt, floatPtErr, floatCaloPtErr: DiscretePFInputs.h:52-54, 168-170, 218, 262 *)
Definition float_pt (n : Z) : fl := fdiv (of_int n) PT_SCALE.
(** floatEta, floatPhi: DiscretePFInputs.h:56-57, 171-172, 219-220, 263-264 *)
Definition float_angle (n : Z) : fl := fdiv (of_int n) ETAPHI_SCALE.
(** DiscretePFInputs.h:113-117 *)
Definition float_vtxpt (n : Z) : fl := finv (fdiv (of_int n) INVPT_SCALE).
Definition float_vtxeta (n : Z) : fl := fdiv (of_int n) VTX_ETA_SCALE.
Definition float_vtxphi (n : Z) : fl := fdiv (of_int n) VTX_PHI_SCALE.
Definition float_dz (n : Z) : fl := fdiv (of_int n) Z0_SCALE.
Definition int_charge (c : bool) : Z := if c then 1 else -1.
(** DiscretePFInputs.h:268 *)
Definition float_puppiw (n : Z) : fl := fdiv (of_int n) PUPPI_SCALE.

(** ** Order: DiscretePFInputs.h:32, 155, 207, 257 *)
Definition before_pt (pt pt' : Z) : bool := pt >? pt'.

(** ** More of the same
    CaloCluster::setFloatPt, setFloatEmPt, minFloatPt: DiscretePFInputs.h:55, 58-59
    (PFParticle::setFloatPt, 273, is the same) *)
Definition clu_set_pt (pt : fl) (c : Clu) : res Clu :=
  do p <- fill_pt pt; Ok (mkClu p (cl_empt c) (cl_pterr c) (cl_eta c) (cl_phi c) (cl_flags c) (cl_isem c) (cl_used c)).
Definition clu_set_empt (pt : fl) (c : Clu) : res Clu :=
  do p <- fill_pt pt; Ok (mkClu (cl_pt c) p (cl_pterr c) (cl_eta c) (cl_phi c) (cl_flags c) (cl_isem c) (cl_used c)).
Definition min_float_pt : fl := fdiv (Fin 1) PT_SCALE.
