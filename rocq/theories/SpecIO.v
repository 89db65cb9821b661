(** Specification vocabulary for the binary dumps and the region iteration. *)
From Coq Require Import QArith.
From Verif Require Import Base Data Discrete Convert DiscreteIO.
Open Scope Z_scope.

(** ** Field ranges (DiscretePFInputs.h) *)
Definition clu_wf (c : Clu) : Prop :=
  inS 16 (cl_pt c) /\ inS 16 (cl_empt c) /\ inS 16 (cl_pterr c) /\ inS 16 (cl_eta c) /\ inS 16 (cl_phi c) /\ inU 16 (cl_flags c).
Definition itk_wf (t : ITk) : Prop :=
  inU 16 (it_invpt t) /\ inS 32 (it_veta t) /\ inS 32 (it_vphi t) /\ inS 16 (it_z0 t) /\ inU 16 (it_chi2 t) /\ inU 16 (it_stubs t) /\ inU 16 (it_flags t).
Definition ptk_wf (t : PTk) : Prop :=
  itk_wf (pt_in t) /\ inS 16 (pt_pt t) /\ inS 16 (pt_pterr t) /\ inS 16 (pt_calopterr t) /\ inS 16 (pt_eta t) /\ inS 16 (pt_phi t).
Definition dmu_wf (m : DMu) : Prop := inS 16 (dm_pt m) /\ inS 16 (dm_eta m) /\ inS 16 (dm_phi m) /\ inU 16 (dm_flags m).
Definition fits {T} (l : list T) : Prop := Z.of_nat (length l) < 2 ^ 32.
Definition region_wf (r : Region) : Prop :=
  Forall (inU 32) [rg_etac r; rg_etamin r; rg_etamax r; rg_phic r; rg_phihw r; rg_etax r; rg_phix r] /\
  (Forall clu_wf (rg_calo r) /\ fits (rg_calo r)) /\ (Forall clu_wf (rg_emcalo r) /\ fits (rg_emcalo r)) /\
  (Forall ptk_wf (rg_track r) /\ fits (rg_track r)) /\ (Forall dmu_wf (rg_muon r) /\ fits (rg_muon r)).

(** ** What a dump keeps: everything but the transient flags *)
Definition clu_kept (c : Clu) : Clu := mkClu (cl_pt c) (cl_empt c) (cl_pterr c) (cl_eta c) (cl_phi c) (cl_flags c) (cl_isem c) false.
Definition ptk_kept (t : PTk) : PTk := mkPTk (pt_in t) (pt_pt t) (pt_pterr t) (pt_calopterr t) (pt_eta t) (pt_phi t) false false false.
Definition region_kept (r : Region) : Region :=
  mkRegion (rg_etac r) (rg_etamin r) (rg_etamax r) (rg_phic r) (rg_phihw r) (rg_etax r) (rg_phix r)
    (map clu_kept (rg_calo r)) (map clu_kept (rg_emcalo r)) (map ptk_kept (rg_track r)) (rg_muon r).

(** ** Event dumps: the layout Event::readFromFile expects.  (The program that
    writes them is not in this repository.) *)
Definition event_dump (e : event) : list Z :=
  le 4 (ev_run e) ++ le 4 (ev_lumi e) ++ le 8 (ev_event e) ++ write_many region_write (ev_regions e) ++
  le 4 (ev_z0 e) ++ le 4 (ev_genz0 e) ++ le 4 (ev_acm e) ++ le 4 (ev_acr e) ++ le 4 (ev_afm e) ++ le 4 (ev_afr e).
Definition dump (events : list event) : list Z := concat (map event_dump events).
Definition event_wf (e : event) : Prop :=
  inU 32 (ev_run e) /\ inU 32 (ev_lumi e) /\ inU 64 (ev_event e) /\ Forall (inU 32) [ev_z0 e; ev_genz0 e; ev_acm e; ev_acr e; ev_afm e; ev_afr e] /\
  Forall region_wf (ev_regions e) /\ fits (ev_regions e).
Definition event_kept (e : event) : event :=
  mkEv (ev_run e) (ev_lumi e) (ev_event e) (ev_z0 e) (ev_genz0 e) (ev_acm e) (ev_acr e) (ev_afm e) (ev_afr e) (map region_kept (ev_regions e)).

(** ** |etaCenter| <= 1.5 *)
(** absolute value of a finite binary32 (IEEE 754): fields of 8 and 23 bits *)
Definition f32_abs (b : Z) : Q :=
  let expo := (b / 2 ^ 23) mod 2 ^ 8 in let frac := b mod 2 ^ 23 in
  if expo =? 0 then (inject_Z frac * (2 # 1) ^ (-149))%Q else ((inject_Z (2 ^ 23 + frac)) * (2 # 1) ^ (expo - 150))%Q.
Definition f32_finite (b : Z) : Prop := (b / 2 ^ 23) mod 2 ^ 8 <> 255.
Definition barrel (r : Region) : bool := Qle_bool (f32_abs (rg_etac r)) (3 # 2).
(** etaCenter is a number *)
Definition region_finite (r : Region) : Prop := f32_finite (rg_etac r).

(** ** What a sequence of nextRegion calls shows *)
(** the first n objects converted, the other slots cleared *)
Definition filled {In Out} (conv : In -> Out) (clr : Out) (NMAX : nat) (ins : list In) : list Out :=
  map conv (firstn NMAX ins) ++ repeat clr (NMAX - length ins).
(** the results of n calls when the regions to be shown are l *)
Definition shown {A} (l : list A) (n : nat) : list (option A) := map Some (firstn n l) ++ repeat None (n - length l).

(** ** What nextRegion hands to the firmware for one region *)
Definition fw_arrays (c : config) (special : Z -> Z) (e : event) (r : Region) : fwregion :=
  mkFw (filled fw_had (mkHad 0 0 0 0 false) (NCALO c) (rg_calo r)) (filled fw_em (mkEm 0 0 0 0) (NEMCALO c) (rg_emcalo r)) (filled fw_tk (mkTk 0 0 0 0 0 false) (NTRACK c) (rg_track r))
    (filled fw_mu (mkMu 0 0 0 0) (NMU c) (rg_muon r)) (zpv special (ev_z0 e)).
(** the barrel regions of an event *)
Definition barrel_regions (e : event) : list Region := filter barrel (ev_regions e).
(** what the code shows of an event: of an event numbered 0 only the first region *)
Definition event_regions (e : event) : list Region := filter barrel (if ev_event e =? 0 then firstn 1 (ev_regions e) else ev_regions e).
Definition all_regions (sel : event -> list Region) (events : list event) : list (event * Region) := flat_map (fun e => map (pair e) (sel e)) events.
Definition good_event (e : event) : Prop := event_wf e /\ Forall region_finite (ev_regions e) /\ ev_regions e <> [].
Definition arrays_ok (c : config) (o : fwregion) : Prop :=
  length (fw_calo o) = NCALO c /\ length (fw_emcalo o) = NEMCALO c /\ length (fw_track o) = NTRACK c /\ length (fw_muon o) = NMU c.
