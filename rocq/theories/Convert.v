(** utils/DiscretePF2Firmware.h and utils/Firmware2DiscretePF.h: conversions
    between the discrete objects and the firmware objects. *)
From Verif Require Import Base Data Discrete.

(** ** Discrete to firmware *)
(** DiscretePF2Firmware.h:12-19 *)
Definition fw_tk (t : PTk) : Tk :=
  mkTk (pt_t (pt_pt t)) (pt_t (pt_calopterr t)) (etaphi_t (pt_eta t)) (etaphi_t (pt_phi t)) (z0_t (it_z0 (pt_in t)))
    ((it_stubs (pt_in t) >=? 6) && (it_chi2 (pt_in t) <? 500)).
(** DiscretePF2Firmware.h:20-26 *)
Definition fw_had (c : Clu) : HadCalo := mkHad (pt_t (cl_pt c)) (etaphi_t (cl_eta c)) (etaphi_t (cl_phi c)) (pt_t (cl_empt c)) (cl_isem c).
(** DiscretePF2Firmware.h:27-32 *)
Definition fw_em (c : Clu) : EmCalo := mkEm (pt_t (cl_pt c)) (pt_t (cl_pterr c)) (etaphi_t (cl_eta c)) (etaphi_t (cl_phi c)).
(** DiscretePF2Firmware.h:33-38 *)
Definition fw_mu (m : DMu) : Mu := mkMu (pt_t (dm_pt m)) 0 (etaphi_t (dm_eta m)) (etaphi_t (dm_phi m)).

(** DiscretePF2Firmware.h:40-48: [out] is the caller's array.  in.size() is
    converted to unsigned int in both loops. *)
Definition convert_in {In Out} (conv : In -> Out) (clr : Out) (NMAX : nat) (ins : list In) (out : list Out) : res (list Out) :=
  let size := Z.to_nat (wrapU 32 (Z.of_nat (length ins))) in
  do out1 <- foldM (fun o i => do x <- rd ins i; wr o i (conv x)) (seq 0 (Nat.min NMAX size)) out;
  foldM (fun o i => wr o i clr) (seq size (NMAX - size)) out1.

(** ** Firmware to discrete *)
(** Firmware2DiscretePF.h:13-29: [g] is the indeterminate content of the local
    [pf]; the fields not assigned keep it. *)
Definition dpf_ch (g : PFPart) (src : PFCh) (track : PTk) : PFPart :=
  mkPFPart (c_pt src) (c_eta src) (c_phi src)
    (if c_id src =? PID_Electron then 1 else if c_id src =? PID_Muon then 4 else 0)
    (c_eta src) (c_phi src) (pp_flags g)
    (let c := pp_cluster g in mkClu 0 (cl_empt c) (cl_pterr c) (cl_eta c) (cl_phi c) (cl_flags c) (cl_isem c) (cl_used c))
    track (pp_chargedpv g) (pp_puppiw g) 0.
(** Firmware2DiscretePF.h:30-45 *)
Definition dpf_ne (g : PFPart) (src : PFNe) : PFPart :=
  mkPFPart (n_pt src) (n_eta src) (n_phi src) (if n_id src =? PID_Photon then 3 else 2)
    (n_eta src) (n_phi src) (pp_flags g)
    (let c := pp_cluster g in mkClu (n_pt src) (cl_empt c) (cl_pterr c) (cl_eta c) (cl_phi c) (cl_flags c) (cl_isem c) (cl_used c))
    (let t := pp_track g in mkPTk (pt_in t) 0 (pt_pterr t) (pt_calopterr t) (pt_eta t) (pt_phi t) (pt_mulink t) (pt_used t) (pt_frompv t))
    (pp_chargedpv g) (pp_puppiw g) 0.
(** Firmware2DiscretePF.h:48-54: the caller's object [o] keeps the other fields *)
Definition dpf_tk (i : Tk) (o : PTk) : PTk :=
  let n := pt_in o in
  mkPTk (mkITk (it_invpt n) (it_veta n) (it_vphi n) (it_charge n) (t_z0 i) (it_chi2 n) (it_stubs n) (it_flags n))
    (t_pt i) (pt_pterr o) (t_pterr i) (t_eta i) (t_phi i) (pt_mulink o) (pt_used o) (pt_frompv o).
(** Firmware2DiscretePF.h:55-61 *)
Definition dpf_had (i : HadCalo) (o : Clu) : Clu := mkClu (h_pt i) (h_empt i) (cl_pterr o) (h_eta i) (h_phi i) (cl_flags o) (h_isem i) (cl_used o).
(** Firmware2DiscretePF.h:62-67 *)
Definition dpf_em (i : EmCalo) (o : Clu) : Clu := mkClu (e_pt i) (cl_empt o) (e_pterr i) (e_eta i) (e_phi i) (cl_flags o) (cl_isem o) (cl_used o).
(** Firmware2DiscretePF.h:68-72 *)
Definition dpf_mu (i : Mu) (o : DMu) : DMu := mkDMu (m_pt i) (m_eta i) (m_phi i) (dm_flags o) (dm_charge o).

(** Firmware2DiscretePF.h:75-80, for neutrals; [garb i] is the indeterminate
    content of the local of the i-th call *)
Definition convert_ne (garb : nat -> PFPart) (NMAX : nat) (ins : list PFNe) (out : list PFPart) : res (list PFPart) :=
  foldM (fun o i => do x <- rd ins i; Ok (if n_pt x >? 0 then o ++ [dpf_ne (garb i) x] else o)) (seq 0 NMAX) out.
(** Firmware2DiscretePF.h:81-89 *)
Definition convert_ch (garb : nat -> PFPart) (NMAX : nat) (ins : list PFCh) (src : list PTk) (out : list PFPart) : res (list PFPart) :=
  foldM (fun o i => do x <- rd ins i;
    if c_pt x >? 0 then (if (i <? length src)%nat then do t <- rd src i; Ok (o ++ [dpf_ch (garb i) x t]) else UB AssertFail) else Ok o) (seq 0 NMAX) out.
