(** Model of simple_fullpfalgo_ref.cpp.  Debug printing (g_debug_) is in PFDebug.v.
    The C index -1 ("no match") is [None]. *)
From Verif Require Import Base Data PFHw.

(** simple_fullpfalgo_ref.cpp:14-25; [pt eta phi] are the fields of CO_t *)
Definition best_match_ref {CO} (pt eta phi : CO -> Z) (dr2max : Z) (doPtMin : bool)
    (calo : list CO) (track : Tk) : option nat :=
  let m := pt_t (t_pt track - 2 * t_pterr track) in
  let caloPtMin := if m <? 0 then 0 else m in
  snd (fold_left (fun '(drmin, ibest) '(ic, c) =>
                    if doPtMin && (pt c <=? caloPtMin) then (drmin, ibest)
                    else let dr := dr2_int (t_eta track) (t_phi track) (eta c) (phi c) in
                         if dr <? drmin then (dr, Some ic) else (drmin, ibest))
                 (indexed calo) (dr2max, None)).

(** simple_fullpfalgo_ref.cpp:26-36 *)
Definition best_match_em_ref (dr2max : Z) (calo : list HadCalo) (em : EmCalo) : option nat :=
  let emPtMin := pt_t (Z.shiftr (e_pt em) 1) in
  snd (fold_left (fun '(drmin, ibest) '(ic, c) =>
                    if h_empt c <=? emPtMin then (drmin, ibest)
                    else let dr := dr2_int (e_eta em) (e_phi em) (h_eta c) (h_phi c) in
                         if dr <? drmin then (dr, Some ic) else (drmin, ibest))
                 (indexed calo) (dr2max, None)).

(** simple_fullpfalgo_ref.cpp:38-53 (int arithmetic checked for overflow) *)
Definition best_match_with_pt_ref (dr2max : Z) (calo : list HadCalo) (track : Tk) : res (option nat) :=
  let m := pt_t (t_pt track - 2 * t_pterr track) in
  let caloPtMin := if m <? 0 then 0 else m in
  let dptscale := (dr2max * 256) / Z.max 1 (t_pterr track * t_pterr track) in
  do st <- foldM (fun '(drmin, ibest) '(ic, c) =>
                    if h_pt c <=? caloPtMin then Ok (drmin, ibest)
                    else let dr := dr2_int (t_eta track) (t_phi track) (h_eta c) (h_phi c) in
                         if dr >=? dr2max then Ok (drmin, ibest)
                         else
                           let d := Z.max (t_pt track - h_pt c) 0 in
                           do d2 <- i32 (d * d);
                           do p <- i32 (d2 * dptscale);
                           do dr' <- i32 (dr + Z.shiftr p 8);
                           match ibest with
                           | None => Ok (dr', Some ic)
                           | Some _ => if dr' <? drmin then Ok (dr', Some ic) else Ok (drmin, ibest)
                           end)
                 (indexed calo) (0, None);
  Ok (snd st).

(** simple_fullpfalgo_ref.cpp:56-63 (line 60 instantiates best_match_ref with
    NCALO, the size of [calo] in the model) *)
Definition link_ref {CO} (pt eta phi : CO -> Z) (dr2max : Z) (doPtMin : bool)
    (calo : list CO) (track : list Tk) : res (list (list bool)) :=
  mapM (fun tk => match best_match_ref pt eta phi dr2max doPtMin calo tk with
                  | None => Ok (map (fun _ => false) calo)
                  | Some i => wr (map (fun _ => false) calo) i true
                  end) track.

(** simple_fullpfalgo_ref.cpp:65-81, template over T *)
Definition ptsort_ref_step {T} (pt : T -> Z) (nout : nat) (out : list T) (x : T) : res (list T) :=
  match find (fun iout => match nth_error out iout with Some o => pt x >=? pt o | None => false end) (seq 0 nout) with
  | None => Ok out
  | Some iout =>
      do out' <- foldM (fun out i2 => do v <- rd out (i2 - 1); wr out i2 v)
                       (rev (seq (S iout) (nout - S iout))) out;
      wr out' iout x
  end.
Definition ptsort_ref {T} (pt : T -> Z) (zero : T -> T) (input : list T) (out : list T) : res (list T) :=
  foldM (ptsort_ref_step pt (length out)) input (map zero out).

(** simple_fullpfalgo_ref.cpp:95-105: tk2em and calo_sumtk *)
Definition em_ref_track_step (emcalo : list EmCalo) (st : list (option nat) * list Z) (p : Tk * bool)
    : res (list (option nat) * list Z) :=
  let '(tk2em, sumtk) := st in
  let '(tk, mu) := p in
  if (t_pt tk >? 0) && negb mu
  then match best_match_ref e_pt e_eta e_phi DR2MAX_TK_EM false emcalo tk with
       | None => Ok (tk2em ++ [None], sumtk)
       | Some i => do s <- rd sumtk i;
                   do sumtk' <- wr sumtk i (pt_t (s + t_pt tk));
                   Ok (tk2em ++ [Some i], sumtk')
       end
  else Ok (tk2em ++ [None], sumtk).

(** simple_fullpfalgo_ref.cpp:112-143: (isEM, photonPt) *)
Definition em_ref_photon (c : EmCalo) (sumtk : Z) : res (bool * Z) :=
  if sumtk >? 0 then
    let ptdiff := pt_t (e_pt c - sumtk) in
    do sigma2 <- i32 (e_pterr c * e_pterr c);
    do sigma2Lo <- i32 (4 * sigma2);
    do sigma2Hi <- i32 (sigma2 + Z.shiftr sigma2 1);
    do ptdiff2 <- i32 (ptdiff * ptdiff);
    if ((ptdiff >? 0) && (ptdiff2 <=? sigma2Hi)) || ((ptdiff <? 0) && (ptdiff2 <? sigma2Lo))
    then Ok (true, 0)
    else if ptdiff >? 0 then Ok (true, ptdiff)
    else Ok (false, 0)
  else Ok (true, e_pt c).

(** simple_fullpfalgo_ref.cpp:162-190, one hadronic cluster.  [kv] is the value
    assigned to [keep] at line 168; the code has [true]. *)
Definition em_ref_had (kv : bool) (emcalo : list EmCalo) (isEM : list bool) (em2calo : list (option nat))
    (ih : nat) (h : HadCalo) : HadCalo :=
  let '(sub, keep) :=
    fold_left (fun '(sub, keep) '((em, isem), m) =>
                 match m with
                 | Some k => if (k =? ih)%nat
                             then (if (isem : bool) then (pt_t (sub + e_pt em), keep) else (sub, kv))
                             else (sub, keep)
                 | None => (sub, keep)
                 end)
              (combine (combine emcalo isEM) em2calo) (0, false) in
  let emdiff := pt_t (h_empt h - sub) in
  let alldiff := pt_t (h_pt h - sub) in
  if alldiff <=? Z.shiftr (h_pt h) 4 then mkHad 0 (h_eta h) (h_phi h) 0 (h_isem h)
  else if (h_isem h && (emdiff <=? Z.shiftr (h_empt h) 3)) && negb keep
       then mkHad 0 (h_eta h) (h_phi h) 0 (h_isem h)
       else mkHad alldiff (h_eta h) (h_phi h) (if emdiff >? 0 then emdiff else 0) (h_isem h).

(** simple_fullpfalgo_ref.cpp:84-191: returns (isEle, outpho, hadcalo_out) *)
Definition pfalgo3_em_ref (kv : bool) (emcalo : list EmCalo) (hadcalo : list HadCalo) (track : list Tk)
    (isMu : list bool) (old : nat -> PFNe) : res (list bool * list PFNe * list HadCalo) :=
  do (tk2em, sumtk) <- foldM (em_ref_track_step emcalo) (combine track isMu) ([], map (fun _ => 0) emcalo);
  do emres <- mapM (fun '(c, s) => em_ref_photon c s) (combine emcalo sumtk);
  let isEM := map fst emres in
  let outpho := mapi (fun i '(c, (_, p)) =>
                        let nz := negb (p =? 0) in
                        mkNe p (if nz then e_eta c else 0) (if nz then e_phi c else 0)
                             (if nz then PID_Photon else 0) (n_puppi (old i)))
                     (combine emcalo emres) in
  do isEle <- mapM (fun m => match m with None => Ok false | Some i => rd isEM i end) tk2em;
  let em2calo := map (best_match_em_ref DR2MAX_EM_CALO hadcalo) emcalo in
  Ok (isEle, outpho, mapi (em_ref_had kv emcalo isEM em2calo) hadcalo).

(** simple_fullpfalgo_ref.cpp:239-265, one muon *)
Definition mu_ref_best (track : list Tk) (mu : Mu) : option nat :=
  snd (fold_left (fun '(dptmin, ibest) '(it, tk) =>
                    if dr2_int (m_eta mu) (m_phi mu) (t_eta tk) (t_phi tk) <? DR2MAX_TK_MU
                    then let dpt := Z.abs (t_pt tk - m_pt mu) in
                         if dpt <? dptmin then (dpt, Some it) else (dptmin, ibest)
                    else (dptmin, ibest))
                 (indexed track) (Z.shiftr (m_pt mu) 1, None)).
Definition mu_ref_step (track : list Tk) (st : list PFCh * list bool) (mu : Mu) : res (list PFCh * list bool) :=
  let '(out, isMu) := st in
  if m_pt mu >? 0 then
    match mu_ref_best track mu with
    | Some ibest =>
        do tk <- rd track ibest;
        do isMu' <- wr isMu ibest true;
        Ok (out ++ [mkCh (t_pt tk) (t_eta tk) (t_phi tk) PID_Muon (t_z0 tk)], isMu')
    | None => Ok (out ++ [ch0], isMu)
    end
  else Ok (out ++ [ch0], isMu).

(** simple_fullpfalgo_ref.cpp:283-303: (track_good, calo_sumtk, calo_sumtkErr2) *)
Definition had_ref_track_step (calo : list HadCalo) (st : list bool * list Z * list Z) (p : Tk * (bool * bool))
    : res (list bool * list Z * list Z) :=
  let '(good, sums, errs) := st in
  let '(tk, (ele, mu)) := p in
  let good0 := (t_pt tk <? (if t_tight tk then TK_MAXINVPT_TIGHT else TK_MAXINVPT_LOOSE)) || ele || mu in
  if (t_pt tk >? 0) && negb ele && negb mu
  then do m <- best_match_with_pt_ref DR2MAX_TK_CALO calo tk;
       match m with
       | None => Ok (good ++ [good0], sums, errs)
       | Some i => do s <- rd sums i;
                   do sums' <- wr sums i (pt_t (s + t_pt tk));
                   do e <- rd errs i;
                   do e' <- i32 (e + t_pterr tk * t_pterr tk);
                   do errs' <- wr errs i e';
                   Ok (good ++ [true], sums', errs')
       end
  else Ok (good ++ [good0], sums, errs).

(** simple_fullpfalgo_ref.cpp:305-325: calo_subpt *)
Definition had_ref_subpt (c : HadCalo) (sumtk sumerr : Z) : res Z :=
  if sumtk >? 0 then
    let ptdiff := pt_t (h_pt c - sumtk) in
    do sigmamult <- i32 (sumerr + Z.shiftr sumerr 1);
    Ok (if (ptdiff >? 0) && (ptdiff * ptdiff >? sigmamult) then ptdiff else 0)
  else Ok (h_pt c).

(** simple_fullpfalgo_ref.cpp:330-338 *)
Definition had_ref_ch (tk : Tk) (good ele mu : bool) : PFCh :=
  if good then mkCh (t_pt tk) (t_eta tk) (t_phi tk)
                    (if ele then PID_Electron else if mu then PID_Muon else PID_Charged) (t_z0 tk)
  else ch0.

(** simple_fullpfalgo_ref.cpp:341-350 *)
Definition had_ref_ne (c : HadCalo) (subpt : Z) (junk : PFNe) : PFNe :=
  if subpt >? 0 then mkNe subpt (h_eta c) (h_phi c) PID_Neutral (n_puppi junk)
  else mkNe 0 0 0 0 (n_puppi junk).

(** simple_fullpfalgo_ref.cpp:193-354.  [junk_tmp mem] is the previous content
    of the caller's outne array (only its hwPtPuppi survives line 289). *)
Definition pfalgo3_full_ref_gen (kv : bool) (mem : pfmem) (nsel : nat)
    (emcalo : list EmCalo) (hadcalo : list HadCalo) (track : list Tk) (mu : list Mu) : res pfout :=
  do (outmu, isMu) <- foldM (mu_ref_step track) mu ([], map (fun _ => false) track);
  do (isEle, outpho, calo) <- pfalgo3_em_ref kv emcalo hadcalo track isMu (old_outpho mem);
  do (good, sums, errs) <- foldM (had_ref_track_step calo) (combine track (combine isEle isMu))
                                 ([], map (fun _ => 0) hadcalo, map (fun _ => 0) hadcalo);
  do subpt <- mapM (fun '(c, (s, e)) => had_ref_subpt c s e) (combine calo (combine sums errs));
  let outch := map (fun '((tk, (ele, m)), g) => had_ref_ch tk g ele m)
                   (combine (combine track (combine isEle isMu)) good) in
  let outne_all := mapi (fun i '(c, p) => had_ref_ne c p (junk_ne_all mem i)) (combine calo subpt) in
  let outne0 := map (fun i => mkNe 0 0 0 0 (n_puppi (junk_tmp mem i))) (seq 0 nsel) in
  do outne <- ptsort_ref n_pt ne_zero_pt outne_all outne0;
  Ok (mkOut outch outpho outne outmu).

(** The reference as written (line 168: keep = true). *)
Definition pfalgo3_full_ref := pfalgo3_full_ref_gen true.
