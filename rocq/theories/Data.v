(** Records and constants of firmware/data.h and firmware/simple_fullpfalgo.h. *)
From Verif Require Import Base.

(** data.h:6-10  pt_t = ap_int<16>, etaphi_t = ap_int<10>,
    particleid_t = ap_uint<3>, z0_t = ap_int<10>.  Assignments to these types: *)
Definition pt_t (x : Z) : Z := wrapS 16 x.
Definition etaphi_t (x : Z) : Z := wrapS 10 x.
Definition z0_t (x : Z) : Z := wrapS 10 x.

(** data.h:12 *)
Definition PID_Charged : Z := 0.
Definition PID_Neutral : Z := 1.
Definition PID_Photon : Z := 2.
Definition PID_Electron : Z := 3.
Definition PID_Muon : Z := 4.

(** data.h:55-62  (HadCaloObj derives from CaloObj) *)
Record HadCalo := mkHad { h_pt : Z; h_eta : Z; h_phi : Z; h_empt : Z; h_isem : bool }.
(** data.h:67-70 *)
Record EmCalo := mkEm { e_pt : Z; e_pterr : Z; e_eta : Z; e_phi : Z }.
(** data.h:75-80 *)
Record Tk := mkTk { t_pt : Z; t_pterr : Z; t_eta : Z; t_phi : Z; t_z0 : Z; t_tight : bool }.
(** data.h:85-88 *)
Record Mu := mkMu { m_pt : Z; m_pterr : Z; m_eta : Z; m_phi : Z }.
(** data.h:94-99 *)
Record PFCh := mkCh { c_pt : Z; c_eta : Z; c_phi : Z; c_id : Z; c_z0 : Z }.
(** data.h:100-105 *)
Record PFNe := mkNe { n_pt : Z; n_eta : Z; n_phi : Z; n_id : Z; n_puppi : Z }.
(** data.h:106-111 *)
Record Vtx := mkVtx { v_sumpt : Z; v_z0 : Z; v_mult : Z; v_id : Z }.

(** data.h:63-65, 71-73, 81-83, 89-91: clear *)
Definition had0 : HadCalo := mkHad 0 0 0 0 false.
Definition em0 : EmCalo := mkEm 0 0 0 0.
Definition tk0 : Tk := mkTk 0 0 0 0 0 false.
Definition mu0 : Mu := mkMu 0 0 0 0.

(** simple_fullpfalgo.h:21-26 *)
Definition DR2MAX_TK_CALO : Z := 756.
Definition DR2MAX_EM_CALO : Z := 525.
Definition DR2MAX_TK_MU : Z := 2101.
Definition DR2MAX_TK_EM : Z := 84.
Definition TK_MAXINVPT_LOOSE : Z := 40.
Definition TK_MAXINVPT_TIGHT : Z := 80.

(** data.h:113-115 *)
Definition MP7_NCHANN : nat := 144.
Definition CTP7_NCHANN_IN : nat := 67.
Definition CTP7_NCHANN_OUT : nat := 48.

(** data.h:22-49  array sizes of the build configurations *)
Record config := mkCfg { NTRACK : nat; NCALO : nat; NMU : nat; NEMCALO : nat; NSELCALO : nat }.
Definition cfg_TESTMP7 : config := mkCfg 15 15 2 15 10.
Definition cfg_TESTCTP7 : config := mkCfg 7 5 2 5 4.
Definition cfg_default : config := mkCfg 7 5 2 5 4.

(** ** Field ranges implied by the types (data.h:6-10) *)
Definition had_ok (h : HadCalo) : Prop := inS 16 (h_pt h) /\ inS 10 (h_eta h) /\ inS 10 (h_phi h) /\ inS 16 (h_empt h).
Definition em_ok (e : EmCalo) : Prop := inS 16 (e_pt e) /\ inS 16 (e_pterr e) /\ inS 10 (e_eta e) /\ inS 10 (e_phi e).
Definition tk_ok (t : Tk) : Prop := inS 16 (t_pt t) /\ inS 16 (t_pterr t) /\ inS 10 (t_eta t) /\ inS 10 (t_phi t) /\ inS 10 (t_z0 t).
Definition mu_ok (m : Mu) : Prop := inS 16 (m_pt m) /\ inS 16 (m_pterr m) /\ inS 10 (m_eta m) /\ inS 10 (m_phi m).
Definition ch_ok (c : PFCh) : Prop := inS 16 (c_pt c) /\ inS 10 (c_eta c) /\ inS 10 (c_phi c) /\ inU 3 (c_id c) /\ inS 10 (c_z0 c).
Definition ne_ok (n : PFNe) : Prop := inS 16 (n_pt n) /\ inS 10 (n_eta n) /\ inS 10 (n_phi n) /\ inU 3 (n_id n).
