(** Model of HumanReadablePatternSerializer (utils/pattern_serializer.h:69-87,
    utils/pattern_serializer.cpp:90-172).  The text written to the stream is a
    list of characters.  Not modelled: the message of the destructor, fflush,
    failure of fopen. *)
From Coq Require Import Ascii String.
From Verif Require Import Base Data PFHw SerText Printf.
Local Open Scope string_scope.
Local Open Scope list_scope.
Local Open Scope Z_scope.

(** pattern_serializer.h:83-85: [hs_open] is [file_ != nullptr] (a file or
    stdout), [hs_n] is ipattern_ *)
Record hr := mkHr { hs_open : bool; hs_n : Z; hs_text : list ascii }.
(** pattern_serializer.cpp:90-100; [named] is [!fname.empty()] *)
Definition hr_new (named : bool) : hr := mkHr named 0 [].
(** fprintf(file_, ...) *)
Definition hr_put (s : hr) (t : list ascii) : res hr :=
  if hs_open s then Ok (mkHr true (hs_n s) (hs_text s ++ t)) else UB NullDeref.

(** pattern_serializer.cpp:128-133 *)
Definition had_line (i : nat) (o : HadCalo) : list ascii :=
  printf_nl "   calo  %3d, hwPt % 7d   hwEmPt  % 7d    hwEta %+7d   hwPhi %+7d   hwIsEM %1d" [Z.of_nat i; h_pt o; h_empt o; h_eta o; h_phi o; b2z (h_isem o)].
Definition hr_dump_hadcalo (had : list HadCalo) (s : hr) : res hr := foldM (fun s p => hr_put s (had_line (fst p) (snd p))) (indexed had) s.
(** pattern_serializer.cpp:134-139 *)
Definition em_line (i : nat) (o : EmCalo) : list ascii :=
  printf_nl "   em    %3d, hwPt % 7d   hwPtErr % 7d    hwEta %+7d   hwPhi %+7d" [Z.of_nat i; e_pt o; e_pterr o; e_eta o; e_phi o].
Definition hr_dump_emcalo (em : list EmCalo) (s : hr) : res hr := foldM (fun s p => hr_put s (em_line (fst p) (snd p))) (indexed em) s.
(** pattern_serializer.cpp:140-145 *)
Definition tk_line (i : nat) (o : Tk) : list ascii :=
  printf_nl "   track %3d, hwPt % 7d   hwPtErr % 7d    hwEta %+7d   hwPhi %+7d     hwZ0 %+7d" [Z.of_nat i; t_pt o; t_pterr o; t_eta o; t_phi o; t_z0 o].
Definition hr_dump_track (tk : list Tk) (s : hr) : res hr := foldM (fun s p => hr_put s (tk_line (fst p) (snd p))) (indexed tk) s.
(** pattern_serializer.cpp:146-151 *)
Definition mu_line (i : nat) (o : Mu) : list ascii :=
  printf_nl "   muon  %3d, hwPt % 7d   hwPtErr % 7d    hwEta %+7d   hwPhi %+7d" [Z.of_nat i; m_pt o; m_pterr o; m_eta o; m_phi o].
Definition hr_dump_mu (mu : list Mu) (s : hr) : res hr := foldM (fun s p => hr_put s (mu_line (fst p) (snd p))) (indexed mu) s.
(** pattern_serializer.cpp:121-126 *)
Definition hr_dump_inputs (em : list EmCalo) (had : list HadCalo) (tk : list Tk) (mu : list Mu) (s : hr) : res hr :=
  do s <- hr_dump_hadcalo had s; do s <- hr_dump_emcalo em s; do s <- hr_dump_track tk s; hr_dump_mu mu s.

(** pattern_serializer.cpp:155-158 *)
Definition ch_line (i : nat) (o : PFCh) : list ascii :=
  printf_nl "   charged pf %3d, hwPt % 7d   hwEta %+7d   hwPhi %+7d   hwId %1d      hwZ0 %+7d" [Z.of_nat i; c_pt o; c_eta o; c_phi o; c_id o; c_z0 o].
(** pattern_serializer.cpp:159-162 *)
Definition pho_line (i : nat) (o : PFNe) : list ascii :=
  printf_nl "   photon  pf %3d, hwPt % 7d   hwEta %+7d   hwPhi %+7d   hwId %1d" [Z.of_nat i; n_pt o; n_eta o; n_phi o; n_id o].
(** pattern_serializer.cpp:163-166 *)
Definition ne_line (i : nat) (o : PFNe) : list ascii :=
  printf_nl "   neutral pf %3d, hwPt % 7d   hwEta %+7d   hwPhi %+7d   hwId %1d" [Z.of_nat i; n_pt o; n_eta o; n_phi o; n_id o].
(** pattern_serializer.cpp:167-170 *)
Definition pfmu_line (i : nat) (o : PFCh) : list ascii :=
  printf_nl "   muon    pf %3d, hwPt % 7d   hwEta %+7d   hwPhi %+7d   hwId %1d" [Z.of_nat i; c_pt o; c_eta o; c_phi o; c_id o].
(** pattern_serializer.cpp:153-172 *)
Definition hr_dump_outputs (o : pfout) (s : hr) : res hr :=
  do s <- foldM (fun s p => hr_put s (ch_line (fst p) (snd p))) (indexed (o_ch o)) s;
  do s <- foldM (fun s p => hr_put s (pho_line (fst p) (snd p))) (indexed (o_pho o)) s;
  do s <- foldM (fun s p => hr_put s (ne_line (fst p) (snd p))) (indexed (o_ne o)) s;
  foldM (fun s p => hr_put s (pfmu_line (fst p) (snd p))) (indexed (o_mu o)) s.

(** the arguments of one call *)
Record hrev := mkHrev { he_em : list EmCalo; he_had : list HadCalo; he_tk : list Tk; he_mu : list Mu; he_out : pfout }.
(** pattern_serializer.cpp:110-119 *)
Definition hr_call (s : hr) (e : hrev) : res hr :=
  if hs_open s then
    do s <- hr_put s (printf_nl "Frame %04u:" [hs_n s]);
    do s <- hr_dump_inputs (he_em e) (he_had e) (he_tk e) (he_mu e) s;
    do s <- hr_dump_outputs (he_out e) s;
    do s <- hr_put s [newline];
    Ok (mkHr (hs_open s) (wrapU 32 (hs_n s + 1)) (hs_text s))
  else Ok s.
(** construct, one call per event: the text *)
Definition hr_session (named : bool) (events : list hrev) : res (list ascii) :=
  do s <- foldM hr_call events (hr_new named); Ok (hs_text s).
