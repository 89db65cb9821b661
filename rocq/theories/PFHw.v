(** Model of firmware/simple_fullpfalgo.cpp, lines 9-510 (the algorithm).
    Array sizes are the lengths of the lists; [ap_uint<N> bits] used as link
    masks are [list bool] (bit i = element i). *)
From Verif Require Import Base Data.

(** simple_fullpfalgo.cpp:14-18 *)
Definition dr2_int (eta1 phi1 eta2 phi2 : Z) : Z :=
  let deta := etaphi_t (eta1 - eta2) in
  let dphi := etaphi_t (phi1 - phi2) in
  deta * deta + dphi * dphi.

(** simple_fullpfalgo.cpp:19-25, [nb] = template parameter NB *)
Definition dr2_int_cap (nb : Z) (eta1 phi1 eta2 phi2 max : Z) : Z :=
  let deta := etaphi_t (eta1 - eta2) in
  let dphi := etaphi_t (phi1 - phi2) in
  let dr2 := deta * deta + dphi * dphi in
  if dr2 <? max then wrapU nb dr2 else max.

(** simple_fullpfalgo.cpp:26-36.  The conversion of the ap_int sum to [int dq]
    truncates to 32 bits (no UB). *)
Definition dr2_dpt_int_cap (nb : Z) (eta1 phi1 eta2 phi2 pt1 pt2 ptscale dr2max max : Z) : Z :=
  let deta := etaphi_t (eta1 - eta2) in
  let dphi := etaphi_t (phi1 - phi2) in
  let dr2 := deta * deta + dphi * dphi in
  let dpt0 := pt_t (pt1 - pt2) in
  let dpt := if dpt0 <? 0 then 0 else dpt0 in
  let dpt2 := if dpt >? 5792 then wrapS 26 (2 ^ 25 - 1) else wrapS 26 (dpt * dpt) in
  let dq := wrapS 32 (dr2 + Z.shiftr (dpt2 * ptscale) 8) in
  if (dr2 <? dr2max) && (dq <? max) then wrapU nb dq else max.

(** The in-place insertion loop that appears in ptsort_hwopt
    (simple_fullpfalgo.cpp:49-57) and in the regionizer
    (regionizer.cpp:25-34, 73-82, 86-95; regionizer_ref.cpp:6-14, 20-29):
    for (i = n-1; i >= 0; --i)
      if (c1(a[i])) { if (i == 0 || c2(a[i-1])) a[i] = x; else a[i] = a[i-1]; } *)
Definition shift_body {T} (c1 c2 : T -> bool) (x : T) (a : list T) (i : nat) : res (list T) :=
  do ai <- rd a i;
  if c1 ai then
    match i with
    | O => wr a O x
    | S j => do aj <- rd a j;
             if c2 aj then wr a i x else wr a i aj
    end
  else Ok a.
Definition shift_loop {T} (c1 c2 : T -> bool) (x : T) (n : nat) (a : list T) : res (list T) :=
  foldM (shift_body c1 c2 x) (rev (seq 0 n)) a.

(** simple_fullpfalgo.cpp:38-64, template over T; [pt] is the hwPt field and
    [zero] overwrites it with 0.  [junk] is the uninitialised content of tmp. *)
Definition ptsort_hwopt {T} (pt : T -> Z) (zero : T -> T) (junk : nat -> T)
    (input : list T) (nout : nat) : res (list T) :=
  let tmp := map (fun i => zero (junk i)) (seq 0 nout) in
  foldM (fun tmp x => shift_loop (fun o => pt o <=? pt x) (fun o => pt o >? pt x) x nout tmp) input tmp.

(** simple_fullpfalgo.cpp:68-77; tk2em_dr_t = ap_uint<7> (line 9) *)
Definition tk2em_drvals (dr2max : Z) (calo : list EmCalo) (track : list Tk) (isMu : list bool) : list (list Z) :=
  map (fun '(tk, ismu) =>
         map (fun c => if (ismu : bool) then wrapU 7 dr2max
                       else dr2_int_cap 7 (t_eta tk) (t_phi tk) (e_eta c) (e_phi c) (wrapU 7 dr2max)) calo)
      (combine track isMu).

(** simple_fullpfalgo.cpp:83-84 = 120,122: caloPtMin *)
Definition caloPtMin (tk : Tk) : Z :=
  let m := pt_t (t_pt tk - 2 * t_pterr tk) in if m <? 0 then 0 else m.

(** simple_fullpfalgo.cpp:79-93; tk2calo_dr_t = ap_uint<10> (line 10) *)
Definition tk2calo_drvals (dr2max : Z) (calo : list HadCalo) (track : list Tk) : list (list Z) :=
  map (fun tk =>
         map (fun c => if h_pt c >? caloPtMin tk
                       then dr2_int_cap 10 (t_eta tk) (t_phi tk) (h_eta c) (h_phi c) (wrapU 10 dr2max)
                       else wrapU 10 dr2max) calo) track.

(** simple_fullpfalgo.cpp:95-101 (operands are positive: C division = Z.div) *)
Definition init_dr2max_times_pterr2_inv (dr2max : Z) : list Z :=
  map (fun n => let i := Z.of_nat n in
                let tmp := (dr2max * 256) / (if i =? 0 then 1 else i * i) in
                let int18_max := 2 ^ 17 - 1 in
                if tmp >? int18_max then int18_max else tmp) (seq 0 512).

(** array read with an [int] index *)
Definition rdZ {A} (l : list A) (i : Z) : res A :=
  if i <? 0 then UB OutOfBounds else rd l (Z.to_nat i).

(** simple_fullpfalgo.cpp:102-112 *)
Definition calc_dptscale (dr2max : Z) (trackHwPtErr : Z) : res Z :=
  if trackHwPtErr <? 512 then rdZ (init_dr2max_times_pterr2_inv dr2max) trackHwPtErr else Ok 0.

(** simple_fullpfalgo.cpp:114-132; tk2calo_dq_t = ap_uint<12> (line 12) *)
Definition tk2calo_drdptvals_row (dr2max : Z) (calo : list HadCalo) (tk : Tk) : res (list Z) :=
  let eDR2MAX := wrapU 12 dr2max in
  let eDQMAX := wrapU 12 (5 * dr2max) in
  do s <- calc_dptscale dr2max (t_pterr tk);
  let dptscale := wrapS 18 s in
  Ok (map (fun c => if h_pt c >? caloPtMin tk
                    then dr2_dpt_int_cap 12 (t_eta tk) (t_phi tk) (h_eta c) (h_phi c)
                           (t_pt tk) (h_pt c) dptscale eDR2MAX eDQMAX
                    else eDQMAX) calo).
Definition tk2calo_drdptvals (dr2max : Z) (calo : list HadCalo) (track : list Tk) : res (list (list Z)) :=
  mapM (tk2calo_drdptvals_row dr2max calo) track.

(** simple_fullpfalgo.cpp:134-147; em2calo_dr_t = ap_uint<10> (line 11) *)
Definition em2calo_drvals (dr2max : Z) (hadcalo : list HadCalo) (emcalo : list EmCalo) : list (list Z) :=
  map (fun em =>
         let hadcaloEmPtMin := pt_t (Z.shiftr (e_pt em) 1) in
         map (fun h => if h_empt h >? hadcaloEmPtMin
                       then dr2_int_cap 10 (e_eta em) (e_phi em) (h_eta h) (h_phi h) (wrapU 10 dr2max)
                       else wrapU 10 dr2max) hadcalo) emcalo.

(** simple_fullpfalgo.cpp:149-163, one row (one [it]); [edr2max] = DR_T(DR2MAX) *)
Definition pick_closest_row (edr2max : Z) (vals : list Z) : list bool :=
  mapi (fun icalo mydr =>
          fold_left (fun (link : bool) '(j, vj) =>
                       if (icalo <=? j)%nat then link && (vj >=? mydr) else link && (vj >? mydr))
                    (indexed vals) (negb (mydr =? edr2max))) vals.
Definition pick_closest (edr2max : Z) (vals : list (list Z)) : list (list bool) :=
  map (pick_closest_row edr2max) vals.

(** simple_fullpfalgo.cpp:164-171 *)
Definition tk2calo_link_dronly (calo : list HadCalo) (track : list Tk) : list (list bool) :=
  pick_closest (wrapU 10 DR2MAX_TK_CALO) (tk2calo_drvals DR2MAX_TK_CALO calo track).
(** simple_fullpfalgo.cpp:172-180 *)
Definition tk2calo_link_drdpt (calo : list HadCalo) (track : list Tk) : res (list (list bool)) :=
  do drvals <- tk2calo_drdptvals DR2MAX_TK_CALO calo track;
  Ok (pick_closest (wrapU 12 (5 * DR2MAX_TK_CALO)) drvals).
(** simple_fullpfalgo.cpp:182-194 *)
Definition tk2em_link (calo : list EmCalo) (track : list Tk) (isMu : list bool) : list (list bool) :=
  pick_closest (wrapU 7 DR2MAX_TK_EM) (tk2em_drvals DR2MAX_TK_EM calo track isMu).
(** simple_fullpfalgo.cpp:195-202 *)
Definition em2calo_link (emcalo : list EmCalo) (hadcalo : list HadCalo) : list (list bool) :=
  pick_closest (wrapU 10 DR2MAX_EM_CALO) (em2calo_drvals DR2MAX_EM_CALO hadcalo emcalo).

(** simple_fullpfalgo.cpp:206-210 (the square of a 16-bit value fits int) *)
Definition tk2calo_tkerr2 (track : list Tk) : list Z := map (fun t => t_pterr t * t_pterr t) track.

(** simple_fullpfalgo.cpp:211-221: returns (sumtk, sumtkerr2) per calo.
    pt_t accumulation wraps, int accumulation is UB on overflow. *)
Definition tk2calo_sumtk_one (track : list Tk) (isEle isMu : list bool) (tkerr2 : list Z)
    (link : list (list bool)) (icalo : nat) : res (Z * Z) :=
  foldM (fun '(sum, sumerr) '(((tk, (ele, mu)), err2), bits) =>
           if negb ele && nth icalo bits false && negb mu
           then do e <- i32 (sumerr + err2); Ok (pt_t (sum + t_pt tk), e)
           else Ok (sum, sumerr))
        (combine (combine (combine track (combine isEle isMu)) tkerr2) link) (0, 0).
Definition tk2calo_sumtk (track : list Tk) (isEle isMu : list bool) (tkerr2 : list Z)
    (link : list (list bool)) (ncalo : nat) : res (list (Z * Z)) :=
  mapM (tk2calo_sumtk_one track isEle isMu tkerr2 link) (seq 0 ncalo).

(** simple_fullpfalgo.cpp:223-232 *)
Definition tk2em_sumtk_one (track : list Tk) (link : list (list bool)) (icalo : nat) : Z :=
  fold_left (fun sum '(tk, bits) => if nth icalo bits false then pt_t (sum + t_pt tk) else sum)
            (combine track link) 0.
Definition tk2em_sumtk (track : list Tk) (link : list (list bool)) (nem : nat) : list Z :=
  map (tk2em_sumtk_one track link) (seq 0 nem).

(** simple_fullpfalgo.cpp:234-246: (sumem, keepcalo) per hadronic cluster.
    Line 240 really assigns [keep = false] (the reference assigns true). *)
Definition em2calo_sumem_one (emcalo : list EmCalo) (isEM : list bool) (link : list (list bool)) (icalo : nat) : Z * bool :=
  fold_left (fun '(sum, keep) '((em, isem), bits) =>
               if nth icalo bits false
               then (if (isem : bool) then (pt_t (sum + e_pt em), keep) else (sum, false))
               else (sum, keep))
            (combine (combine emcalo isEM) link) (0, false).
Definition em2calo_sumem (emcalo : list EmCalo) (isEM : list bool) (link : list (list bool)) (ncalo : nat) : list (Z * bool) :=
  map (em2calo_sumem_one emcalo isEM link) (seq 0 ncalo).

(** simple_fullpfalgo.cpp:248-268 *)
Definition ch0 : PFCh := mkCh 0 0 0 0 0.
Definition tk2calo_tkalgo_one (tk : Tk) (ele mu : bool) (bits : list bool) : PFCh :=
  let goodByPt := t_pt tk <? (if t_tight tk then TK_MAXINVPT_TIGHT else TK_MAXINVPT_LOOSE) in
  let good := mu || ele || goodByPt || existsb (fun b => b) bits in
  if good
  then mkCh (t_pt tk) (t_eta tk) (t_phi tk)
            (if ele then PID_Electron else if mu then PID_Muon else PID_Charged) (t_z0 tk)
  else ch0.
Definition tk2calo_tkalgo (track : list Tk) (isEle isMu : list bool) (link : list (list bool)) : list PFCh :=
  map (fun '((tk, (ele, mu)), bits) => tk2calo_tkalgo_one tk ele mu bits)
      (combine (combine track (combine isEle isMu)) link).

(** simple_fullpfalgo.cpp:271-289; hwPtPuppi is not written and keeps the
    (uninitialised) value found in memory. *)
Definition tk2calo_caloalgo_one (c : HadCalo) (sumtk sumtkerr2 : Z) (old : PFNe) : res PFNe :=
  do calopt <-
    (if sumtk =? 0 then Ok (h_pt c)
     else let ptdiff := pt_t (h_pt c - sumtk) in
          if ptdiff >? 0
          then do s <- i32 (sumtkerr2 + Z.shiftr sumtkerr2 1);
               Ok (if ptdiff * ptdiff >? s then ptdiff else 0)
          else Ok 0);
  let nz := negb (calopt =? 0) in
  Ok (mkNe calopt (if nz then h_eta c else 0) (if nz then h_phi c else 0)
           (if nz then PID_Neutral else 0) (n_puppi old)).
Definition tk2calo_caloalgo (calo : list HadCalo) (sums : list (Z * Z)) (old : nat -> PFNe) : res (list PFNe) :=
  mapM (fun '(i, (c, (s, e))) => tk2calo_caloalgo_one c s e (old i)) (indexed (combine calo sums)).

(** simple_fullpfalgo.cpp:290-312: (isEM, photonPt) of one EM cluster.
    [sigma2 << 2] is treated as undefined when it does not fit int. *)
Definition tk2em_emalgo_one (c : EmCalo) (sumtk : Z) : res (bool * Z) :=
  if sumtk =? 0 then Ok (true, e_pt c)
  else
    let ptdiff := pt_t (e_pt c - sumtk) in
    do ptdiff2 <- i32 (ptdiff * ptdiff);
    do sigma2 <- i32 (e_pterr c * e_pterr c);
    do sigma2Lo <- i32 (sigma2 * 4);
    do sigma2Hi <- i32 (sigma2 + Z.shiftr sigma2 1);
    if ((ptdiff >? 0) && (ptdiff2 <=? sigma2Hi)) || ((ptdiff <? 0) && (ptdiff2 <? sigma2Lo))
    then Ok (true, 0)
    else if ptdiff >? 0 then Ok (true, ptdiff)
    else Ok (false, 0).
Definition tk2em_emalgo (calo : list EmCalo) (sumtk : list Z) : res (list (bool * Z)) :=
  mapM (fun '(c, s) => tk2em_emalgo_one c s) (combine calo sumtk).

(** simple_fullpfalgo.cpp:313-321 *)
Definition tk2em_elealgo (link : list (list bool)) (isEM : list bool) : list bool :=
  map (fun bits => fold_left (fun (ele : bool) '(em, b) => if (em : bool) && b then true else ele)
                             (combine isEM bits) false) link.

(** simple_fullpfalgo.cpp:322-329; hwPtPuppi of the output array is not written *)
Definition tk2em_photons_one (c : EmCalo) (photonPt : Z) (old : PFNe) : PFNe :=
  let nz := negb (photonPt =? 0) in
  mkNe photonPt (if nz then e_eta c else 0) (if nz then e_phi c else 0)
       (if nz then PID_Photon else 0) (n_puppi old).
Definition tk2em_photons (calo : list EmCalo) (photonPt : list Z) (old : nat -> PFNe) : list PFNe :=
  mapi (fun i '(c, p) => tk2em_photons_one c p (old i)) (combine calo photonPt).

(** simple_fullpfalgo.cpp:331-350 *)
Definition em2calo_sub_one (c : HadCalo) (sumem : Z) (keep : bool) : HadCalo :=
  let ptsub := pt_t (h_pt c - sumem) in
  let emsub := pt_t (h_empt c - sumem) in
  if (ptsub <=? Z.shiftr (h_pt c) 4) || (h_isem c && (emsub <=? Z.shiftr (h_empt c) 3) && negb keep)
  then mkHad 0 0 0 0 false
  else mkHad ptsub (h_eta c) (h_phi c) (if emsub >? 0 then emsub else 0) (h_isem c).
Definition em2calo_sub (calo : list HadCalo) (sums : list (Z * bool)) : list HadCalo :=
  map (fun '(c, (s, k)) => em2calo_sub_one c s k) (combine calo sums).

(** simple_fullpfalgo.cpp:356-368, one muon; the ap_uint<12> cap is 2101 *)
Definition spfph_mu2trk_dptvals_row (mu : Mu) (track : list Tk) : list Z :=
  map (fun tk =>
         let dpt := pt_t (m_pt mu - t_pt tk) in
         if dr2_int_cap 12 (m_eta mu) (m_phi mu) (t_eta tk) (t_phi tk) (wrapU 12 DR2MAX_TK_MU) <? wrapU 12 DR2MAX_TK_MU
         then (if dpt >? 0 then dpt else pt_t (- dpt))
         else pt_t (Z.shiftr (m_pt mu) 1)) track.

(** simple_fullpfalgo.cpp:370-382, one muon.  The code stores the bit at
    [it][im]; the model keeps one list over tracks per muon. *)
Definition spfph_mu2trk_linkstep_row (mu : Mu) (dptvals : list Z) : list bool :=
  mapi (fun it mydpt =>
          fold_left (fun (link : bool) '(j, vj) =>
                       if (it <=? j)%nat then link && (vj >=? mydpt) else link && (vj >? mydpt))
                    (indexed dptvals) (mydpt <? Z.shiftr (m_pt mu) 1)) dptvals.

(** simple_fullpfalgo.cpp:384-395 *)
Definition spfph_mutrk_link (mu : list Mu) (track : list Tk) : list (list bool) :=
  map (fun m => spfph_mu2trk_linkstep_row m (spfph_mu2trk_dptvals_row m track)) mu.

(** simple_fullpfalgo.cpp:402-405: ibest = last track whose link bit is set *)
Definition last_set (bits : list bool) : option nat :=
  fold_left (fun best '(it, b) => if (b : bool) then Some it else best) (indexed bits) None.

(** simple_fullpfalgo.cpp:397-421; the muons are processed in order and mark isMu *)
Definition spfph_mualgo_step (track : list Tk) (st : list PFCh * list bool) (p : Mu * list bool)
    : res (list PFCh * list bool) :=
  let '(out, isMu) := st in
  let '(mu, bits) := p in
  match last_set bits with
  | Some ibest =>
      if m_pt mu >? 0
      then do tk <- rd track ibest;
           do isMu' <- wr isMu ibest true;
           Ok (out ++ [mkCh (t_pt tk) (t_eta tk) (t_phi tk) PID_Muon (t_z0 tk)], isMu')
      else Ok (out ++ [ch0], isMu)
  | None => Ok (out ++ [ch0], isMu)
  end.
Definition spfph_mualgo (mu : list Mu) (track : list Tk) (link : list (list bool)) (isMu : list bool)
    : res (list PFCh * list bool) :=
  foldM (spfph_mualgo_step track) (combine mu link) ([], isMu).

(** Indeterminate / previous memory contents read or kept by the code:
    the caller's outpho array, the stack array outne_all and ptsort's tmp. *)
Record pfmem := mkMem { old_outpho : nat -> PFNe; junk_ne_all : nat -> PFNe; junk_tmp : nat -> PFNe }.

(** The four output arrays. *)
Record pfout := mkOut { o_ch : list PFCh; o_pho : list PFNe; o_ne : list PFNe; o_mu : list PFCh }.

Definition ne_zero_pt (n : PFNe) : PFNe := mkNe 0 (n_eta n) (n_phi n) (n_id n) (n_puppi n).

(** simple_fullpfalgo.cpp:427-510 *)
Definition pfalgo3_full (mem : pfmem) (nsel : nat)
    (calo : list EmCalo) (hadcalo : list HadCalo) (track : list Tk) (mu : list Mu) : res pfout :=
  let isMu0 := map (fun _ => false) track in
  let mu_track_link := spfph_mutrk_link mu track in
  do (outmu, isMu) <- spfph_mualgo mu track mu_track_link isMu0;
  let em_track_link := tk2em_link calo track isMu in
  let sumtk2em := tk2em_sumtk track em_track_link (length calo) in
  do emres <- tk2em_emalgo calo sumtk2em;
  let isEM := map fst emres in
  let photonPt := map snd emres in
  let outpho := tk2em_photons calo photonPt (old_outpho mem) in
  let isEle := tk2em_elealgo em_track_link isEM in
  let em_calo_link := em2calo_link calo hadcalo in
  let sumem := em2calo_sumem calo isEM em_calo_link (length hadcalo) in
  let hadcalo_sub := em2calo_sub hadcalo sumem in
  do calo_track_link <- tk2calo_link_drdpt hadcalo_sub track;
  let tkerr2 := tk2calo_tkerr2 track in
  let outch := tk2calo_tkalgo track isEle isMu calo_track_link in
  do sums <- tk2calo_sumtk track isEle isMu tkerr2 calo_track_link (length hadcalo);
  do outne_all <- tk2calo_caloalgo hadcalo_sub sums (junk_ne_all mem);
  do outne <- ptsort_hwopt n_pt ne_zero_pt (junk_tmp mem) outne_all nsel;
  Ok (mkOut outch outpho outne outmu).
