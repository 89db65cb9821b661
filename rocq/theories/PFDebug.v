(** simple_fullpfalgo_ref.cpp with its debugging printout: the functions of
    PFRef.v together with the text they send to the console.  [g] is the global
    g_debug_ (line 8), [more] tells whether the macro
    FASTPUPPI_NTUPLERPRODUCER_DISCRETEPFINPUTS_MORE is defined
    (DiscretePFInputs.h:4-9: in C++11 builds).  Array accesses made only for
    printing are checked like the others. *)
From Coq Require Import Ascii String QArith Qabs.
From Verif Require Import Base Data PFHw PFRef SerText Printf Fill.
Local Open Scope string_scope.
Local Open Scope list_scope.
Local Open Scope Z_scope.

(** ** printf with floating-point arguments
    [%w.2f]: the exact value of the argument rounded to hundredths, ties to
    even (glibc), with the sign of the argument *)
Definition fixed2 (fl : flag) (w : nat) (x : Q) : list ascii :=
  let h := rneQ ((100 # 1) * Qabs x) in
  let sg := if negb (Qle_bool 0 x) then ["-"%char] else match fl with SpaceFlag => [" "%char] | PlusFlag => ["+"%char] | _ => [] end in
  let t := sg ++ dec 10 (h / 100) ++ ["."%char; digit (h / 10 mod 10); digit (h mod 10)] in
  repeat " "%char (w - length t) ++ t.
(** the argument is a float; "inf" and "nan" never occur below *)
Definition conv_f (fl : flag) (w : nat) (x : Fill.fl) : list ascii :=
  match x with Fin a => fixed2 fl w a | Inf => chars "inf" | NaN => chars "nan" end.
Inductive arg := I (x : Z) | F (x : Fill.fl).
(** as [printf_aux], with %f; the third component of [st] says that the point of
    a precision has been read (the precision is 2 in all formats of this file) *)
Fixpoint printg_aux (st : option (flag * nat * bool)) (f : list ascii) (args : list arg) : list ascii :=
  match f with
  | [] => []
  | c :: r =>
    match st with
    | None => if (c =? "%")%char then printg_aux (Some (NoFlag, O, false)) r args else c :: printg_aux None r args
    | Some (fl, w, dot) =>
      if (c =? "+")%char then printg_aux (Some (PlusFlag, w, dot)) r args
      else if (c =? ".")%char then printg_aux (Some (fl, w, true)) r args
      else if (c =? "d")%char then match args with I x :: xs => conv fl w x ++ printg_aux None r xs | _ => [] end
      else if (c =? "f")%char then match args with F x :: xs => conv_f fl w x ++ printg_aux None r xs | _ => [] end
      else printg_aux (Some (fl, if dot then w else (w * 10 + (nat_of_ascii c - 48))%nat, dot)) r args
    end
  end.
(** every format starts with "FW  \t" and ends with "\n" *)
Definition tab : ascii := "009"%char.
Definition fw (f : string) (args : list arg) : list ascii := chars "FW  " ++ tab :: printg_aux None (chars f) args ++ [newline].

(** std::sqrt(float(n)) for an int n >= 0: the int is rounded to 24 bits, and so
    is the root.  The root of a value that has at most 32 bits is never halfway
    between two floats. *)
Definition sqrt_float (n : Z) : Q :=
  let m := rneQ (rnd 24 (-149) (inject_Z n)) in
  let k := 23 - Z.log2 m / 2 in
  let M := m * 4 ^ k in let t := Z.sqrt M in
  (inject_Z (if M - t * t <=? t then t else t + 1) / inject_Z (2 ^ k))%Q.
Definition root (n : Z) : arg := F (Fin (sqrt_float n)).

Definition idx (i : nat) : arg := I (Z.of_nat i).
Definition flg (b : bool) : arg := I (if b then 1 else 0).
(** values and texts of the iterations of a loop *)
Definition loop_text {A} (l : list (A * list ascii)) : list A * list ascii := (map fst l, List.concat (map snd l)).

Section Debug.
Variables (more g : bool).
(** [if (g_debug_) printf(...)] *)
Definition dbg (text : list ascii) : list ascii := if g then text else [].

(** ** The inputs
    simple_fullpfalgo_ref.cpp:195-217; the conversions of Firmware2DiscretePF.h
    (lines 48-72) keep the values, whose types are wider *)
Definition dbg_track (i : nat) (t : Tk) : list ascii :=
  if t_pt t =? 0 then [] else
  fw " track %3d: pt %8d [ %7.2f ]  calo eta %+7d [ %+5.2f ]  calo phi %+7d [ %+5.2f ]  calo ptErr %6d [ %7.2f ] "
    [idx i; I (t_pt t); F (float_pt (t_pt t)); I (t_eta t); F (float_angle (t_eta t)); I (t_phi t); F (float_angle (t_phi t)); I (t_pterr t); F (float_pt (t_pterr t))].
Definition dbg_em (i : nat) (e : EmCalo) : list ascii :=
  if e_pt e =? 0 then [] else
  fw " EM    %3d: pt %8d [ %7.2f ]  calo eta %+7d [ %+5.2f ]  calo phi %+7d [ %+5.2f ]  calo ptErr %6d [ %7.2f ] "
    [idx i; I (e_pt e); F (float_pt (e_pt e)); I (e_eta e); F (float_angle (e_eta e)); I (e_phi e); F (float_angle (e_phi e)); I (e_pterr e); F (float_pt (e_pterr e))].
Definition dbg_had (i : nat) (h : HadCalo) : list ascii :=
  if h_pt h =? 0 then [] else
  fw " calo  %3d: pt %8d [ %7.2f ]  calo eta %+7d [ %+5.2f ]  calo phi %+7d [ %+5.2f ]  calo emPt %7d [ %7.2f ]   isEM %d "
    [idx i; I (h_pt h); F (float_pt (h_pt h)); I (h_eta h); F (float_angle (h_eta h)); I (h_phi h); F (float_angle (h_phi h)); I (h_empt h); F (float_pt (h_empt h)); flg (h_isem h)].
Definition dbg_mu (i : nat) (m : Mu) : list ascii :=
  if m_pt m =? 0 then [] else
  fw " muon  %3d: pt %8d [ %7.2f ]  muon eta %+7d [ %+5.2f ]  muon phi %+7d [ %+5.2f ]   "
    [idx i; I (m_pt m); F (float_pt (m_pt m)); I (m_eta m); F (float_angle (m_eta m)); I (m_phi m); F (float_angle (m_phi m))].
Definition dbg_inputs (em : list EmCalo) (had : list HadCalo) (track : list Tk) (mu : list Mu) : list ascii :=
  if more then dbg (List.concat (mapi dbg_track track) ++ List.concat (mapi dbg_em em) ++ List.concat (mapi dbg_had had) ++ List.concat (mapi dbg_mu mu)) else [].

(** ** The muons: simple_fullpfalgo_ref.cpp:239-265 *)
Definition mu_say_step (track : list Tk) (st : list PFCh * list bool * list ascii) (mu : Mu) : res (list PFCh * list bool * list ascii) :=
  let '(out, isMu, text) := st in
  let im := length out in
  if m_pt mu >? 0 then
    match mu_ref_best track mu with
    | Some ibest =>
        do tk <- rd track ibest;
        do isMu' <- wr isMu ibest true;
        Ok (out ++ [mkCh (t_pt tk) (t_eta tk) (t_phi tk) PID_Muon (t_z0 tk)], isMu', text ++ dbg (fw " muon %3d linked to track %3d " [idx im; idx ibest]))
    | None => Ok (out ++ [ch0], isMu, text ++ dbg (fw " muon %3d not linked to any track" [idx im]))
    end
  else Ok (out ++ [ch0], isMu, text).

(** ** The electromagnetic step *)
(** simple_fullpfalgo_ref.cpp:95-105 *)
Definition em_say_track_step (emcalo : list EmCalo) (st : list (option nat) * list Z * list ascii) (p : Tk * bool)
    : res (list (option nat) * list Z * list ascii) :=
  let '(tk2em, sumtk, text) := st in
  let '(tk, mu) := p in
  let it := length tk2em in
  if (t_pt tk >? 0) && negb mu
  then match best_match_ref e_pt e_eta e_phi DR2MAX_TK_EM false emcalo tk with
       | None => Ok (tk2em ++ [None], sumtk, text)
       | Some i => do c <- rd emcalo i;
                   do s <- rd sumtk i;
                   do sumtk' <- wr sumtk i (pt_t (s + t_pt tk));
                   Ok (tk2em ++ [Some i], sumtk', text ++ dbg (fw " track  %3d pt %7d matched to em calo %3d pt %7d" [idx it; I (t_pt tk); idx i; I (e_pt c)]))
       end
  else Ok (tk2em ++ [None], sumtk, text).
(** simple_fullpfalgo_ref.cpp:107-109 *)
Definition em_say_sum (ic : nat) (p : EmCalo * Z) : list ascii :=
  let '(c, s) := p in if e_pt c >? 0 then fw " emcalo %3d pt %7d has sumtk %7d" [idx ic; I (e_pt c); I s] else [].
(** simple_fullpfalgo_ref.cpp:111-141 *)
Definition em_say_photon (ic : nat) (p : EmCalo * Z) : res (bool * Z * list ascii) :=
  let '(c, sumtk) := p in
  if sumtk >? 0 then
    let ptdiff := pt_t (e_pt c - sumtk) in
    do sigma2 <- i32 (e_pterr c * e_pterr c);
    do sigma2Lo <- i32 (4 * sigma2);
    do sigma2Hi <- i32 (sigma2 + Z.shiftr sigma2 1);
    do ptdiff2 <- i32 (ptdiff * ptdiff);
    if ((ptdiff >? 0) && (ptdiff2 <=? sigma2Hi)) || ((ptdiff <? 0) && (ptdiff2 <? sigma2Lo))
    then Ok (true, 0, dbg (fw " emcalo %3d pt %7d ptdiff %7d [match window: -%.2f / +%.2f] flagged as electron" [idx ic; I (e_pt c); I ptdiff; root sigma2Lo; root sigma2Hi]))
    else if ptdiff >? 0
    then Ok (true, ptdiff, dbg (fw " emcalo %3d pt %7d ptdiff %7d [match window: -%.2f / +%.2f] flagged as electron + photon of pt %7d" [idx ic; I (e_pt c); I ptdiff; root sigma2Lo; root sigma2Hi; I ptdiff]))
    else Ok (false, 0, dbg (fw " emcalo %3d pt %7d ptdiff %7d [match window: -%.2f / +%.2f] flagged as pion" [idx ic; I (e_pt c); I ptdiff; root sigma2Lo; root sigma2Hi]))
  else Ok (true, e_pt c, if e_pt c >? 0 then dbg (fw " emcalo %3d pt %7d flagged as photon" [idx ic; I (e_pt c)]) else []).
(** simple_fullpfalgo_ref.cpp:147-150 *)
Definition ele_say (isEM : list bool) (it : nat) (p : Tk * option nat) : res (bool * list ascii) :=
  let '(tk, m) := p in
  do b <- match m with None => Ok false | Some i => rd isEM i end;
  Ok (b, if b then dbg (fw " track  %3d pt %7d flagged as electron." [idx it; I (t_pt tk)]) else []).
(** simple_fullpfalgo_ref.cpp:152-160 *)
Definition em_had_say (hadcalo : list HadCalo) (ic : nat) (p : EmCalo * bool) : res (option nat * list ascii) :=
  let '(c, isem) := p in
  let m := best_match_em_ref DR2MAX_EM_CALO hadcalo c in
  if g && (e_pt c >? 0)
  then do (pt, empt, hisem) <- match m with None => Ok (-1, -1, 0) | Some k => do h <- rd hadcalo k; Ok (h_pt h, h_empt h, if h_isem h then 1 else 0) end;
       Ok (m, fw " emcalo %3d pt %7d isEM %d matched to hadcalo %7d pt %7d emPt %7d isEM %d"
                [idx ic; I (e_pt c); flg isem; I (match m with None => -1 | Some k => Z.of_nat k end); I pt; I empt; I hisem])
  else Ok (m, []).
(** simple_fullpfalgo_ref.cpp:162-190 *)
Definition had_say (emcalo : list EmCalo) (isEM : list bool) (em2calo : list (option nat)) (ih : nat) (h : HadCalo) : HadCalo * list ascii :=
  let '(sub, keep) :=
    fold_left (fun '(sub, keep) '((em, isem), m) =>
                 match m with
                 | Some k => if (k =? ih)%nat
                             then (if (isem : bool) then (pt_t (sub + e_pt em), keep) else (sub, true))
                             else (sub, keep)
                 | None => (sub, keep)
                 end)
              (combine (combine emcalo isEM) em2calo) (0, false) in
  let emdiff := pt_t (h_empt h - sub) in
  let alldiff := pt_t (h_pt h - sub) in
  let shown := h_pt h >? 0 in
  let text := if shown then dbg (fw " calo   %3d pt %7d has a subtracted pt of %7d, empt %7d -> %7d   isem %d keep %d "
                                   [idx ih; I (h_pt h); I alldiff; I (h_empt h); I emdiff; flg (h_isem h); flg keep]) else [] in
  if alldiff <=? Z.shiftr (h_pt h) 4
  then (mkHad 0 (h_eta h) (h_phi h) 0 (h_isem h), text ++ if shown then dbg (fw " calo   %3d pt %7d --> discarded (zero pt)" [idx ih; I (h_pt h)]) else [])
  else if (h_isem h && (emdiff <=? Z.shiftr (h_empt h) 3)) && negb keep
       then (mkHad 0 (h_eta h) (h_phi h) 0 (h_isem h), text ++ if shown then dbg (fw " calo   %3d pt %7d --> discarded (zero em)" [idx ih; I (h_pt h)]) else [])
       else (mkHad alldiff (h_eta h) (h_phi h) (if emdiff >? 0 then emdiff else 0) (h_isem h), text).
(** simple_fullpfalgo_ref.cpp:84-191 *)
Definition pfalgo3_em_say (emcalo : list EmCalo) (hadcalo : list HadCalo) (track : list Tk)
    (isMu : list bool) (old : nat -> PFNe) : res (list bool * list PFNe * list HadCalo * list ascii) :=
  do (tk2em, sumtk, t1) <- foldM (em_say_track_step emcalo) (combine track isMu) ([], map (fun _ => 0) emcalo, []);
  let t2 := dbg (List.concat (mapi em_say_sum (combine emcalo sumtk))) in
  do r3 <- mapM (fun '(ic, p) => em_say_photon ic p) (indexed (combine emcalo sumtk));
  let '(emres, t3) := loop_text r3 in
  let isEM := map fst emres in
  let outpho := mapi (fun i '(c, (_, p)) =>
                        let nz := negb (p =? 0) in
                        mkNe p (if nz then e_eta c else 0) (if nz then e_phi c else 0)
                             (if nz then PID_Photon else 0) (n_puppi (old i)))
                     (combine emcalo emres) in
  do r4 <- mapM (fun '(it, p) => ele_say isEM it p) (indexed (combine track tk2em));
  let '(isEle, t4) := loop_text r4 in
  do r5 <- mapM (fun '(ic, p) => em_had_say hadcalo ic p) (indexed (combine emcalo isEM));
  let '(em2calo, t5) := loop_text r5 in
  let '(out, t6) := loop_text (mapi (had_say emcalo isEM em2calo) hadcalo) in
  Ok (isEle, outpho, out, t1 ++ t2 ++ t3 ++ t4 ++ t5 ++ t6).

(** ** The hadronic step *)
(** simple_fullpfalgo_ref.cpp:283-303 *)
Definition had_say_track_step (calo : list HadCalo) (st : list bool * list Z * list Z * list ascii) (p : Tk * (bool * bool))
    : res (list bool * list Z * list Z * list ascii) :=
  let '(good, sums, errs, text) := st in
  let '(tk, (ele, mu)) := p in
  let it := length good in
  let good0 := (t_pt tk <? (if t_tight tk then TK_MAXINVPT_TIGHT else TK_MAXINVPT_LOOSE)) || ele || mu in
  if (t_pt tk >? 0) && negb ele && negb mu
  then do m <- best_match_with_pt_ref DR2MAX_TK_CALO calo tk;
       match m with
       | None => Ok (good ++ [good0], sums, errs, text)
       | Some i => do c <- rd calo i;
                   do s <- rd sums i;
                   do sums' <- wr sums i (pt_t (s + t_pt tk));
                   do e <- rd errs i;
                   do e' <- i32 (e + t_pterr tk * t_pterr tk);
                   do errs' <- wr errs i e';
                   Ok (good ++ [true], sums', errs', text ++ dbg (fw " track  %3d pt %7d matched to calo' %3d pt %7d" [idx it; I (t_pt tk); idx i; I (h_pt c)]))
       end
  else Ok (good ++ [good0], sums, errs, text).
(** simple_fullpfalgo_ref.cpp:305-327 *)
Definition subpt_say (ic : nat) (p : HadCalo * (Z * Z)) : res (Z * list ascii) :=
  let '(c, (sumtk, sumerr)) := p in
  do (subpt, text) <-
    (if sumtk >? 0 then
       let ptdiff := pt_t (h_pt c - sumtk) in
       do sigmamult <- i32 (sumerr + Z.shiftr sumerr 1);
       Ok (if (ptdiff >? 0) && (ptdiff * ptdiff >? sigmamult) then ptdiff else 0,
           if (h_pt c >? 0) && more
           then dbg (fw " calo'  %3d pt %7d [ %7.2f ] eta %+7d [ %+5.2f ] has a sum track pt %7d, difference %7d +- %.2f "
                       [idx ic; I (h_pt c); F (float_pt (h_pt c)); I (h_eta c); F (float_angle (h_eta c)); I sumtk; I ptdiff; root sumerr])
           else [])
     else Ok (h_pt c, []));
  Ok (subpt, text ++ if h_pt c >? 0 then dbg (fw " calo'  %3d pt %7d ---> %7d " [idx ic; I (h_pt c); I subpt]) else []).

(** simple_fullpfalgo_ref.cpp:193-354 *)
Definition pfalgo3_full_say (mem : pfmem) (nsel : nat)
    (emcalo : list EmCalo) (hadcalo : list HadCalo) (track : list Tk) (mu : list Mu) : res (pfout * list ascii) :=
  do (outmu, isMu, t1) <- foldM (mu_say_step track) mu ([], map (fun _ => false) track, []);
  do (isEle, outpho, calo, t2) <- pfalgo3_em_say emcalo hadcalo track isMu (old_outpho mem);
  do (good, sums, errs, t3) <- foldM (had_say_track_step calo) (combine track (combine isEle isMu))
                                 ([], map (fun _ => 0) hadcalo, map (fun _ => 0) hadcalo, []);
  do r4 <- mapM (fun '(ic, p) => subpt_say ic p) (indexed (combine calo (combine sums errs)));
  let '(subpt, t4) := loop_text r4 in
  let outch := map (fun '((tk, (ele, m)), g) => had_ref_ch tk g ele m)
                   (combine (combine track (combine isEle isMu)) good) in
  let outne_all := mapi (fun i '(c, p) => had_ref_ne c p (junk_ne_all mem i)) (combine calo subpt) in
  let outne0 := map (fun i => mkNe 0 0 0 0 (n_puppi (junk_tmp mem i))) (seq 0 nsel) in
  do outne <- ptsort_ref n_pt ne_zero_pt outne_all outne0;
  Ok (mkOut outch outpho outne outmu, dbg_inputs emcalo hadcalo track mu ++ t1 ++ t2 ++ t3 ++ t4).
End Debug.

(** ** Using it
    A program calls pfalgo3_full_ref_set_debug (line 10) and pfalgo3_full_ref in
    any order; g_debug_ starts as 0 (line 8).  A call is given its arguments and
    the memory it finds.  The results and the console, in order. *)
Inductive ref_op :=
| SetDebug (b : bool)
| Run (mem : pfmem) (nsel : nat) (em : list EmCalo) (had : list HadCalo) (track : list Tk) (mu : list Mu).
Definition ref_op_step (more : bool) (st : bool * list pfout * list ascii) (o : ref_op) : res (bool * list pfout * list ascii) :=
  let '(g, outs, text) := st in
  match o with
  | SetDebug b => Ok (b, outs, text)
  | Run mem nsel em had track mu => do (out, t) <- pfalgo3_full_say more g mem nsel em had track mu; Ok (g, outs ++ [out], text ++ t)
  end.
Definition ref_session (more : bool) (ops : list ref_op) : res (list pfout * list ascii) :=
  do (_, outs, text) <- foldM (ref_op_step more) ops (false, [], []); Ok (outs, text).
