(** Specification of the debugging printout of the reference: a reader that cuts
    lines into words and tells integers, decimals and labels apart, and the lines
    it should find, in terms of the rules of SpecPF and SpecPFRef. *)
From Coq Require Import Ascii String.
From Verif Require Import Base Data SpecLink SpecPF SpecPFWrap SpecPFRef SerText SpecHR SpecConsole.
Local Open Scope string_scope.
Local Open Scope list_scope.
Local Open Scope Z_scope.

(** ** The reader *)
(** digits, a point and two digits, read as a number of hundredths *)
Definition decimal (s : list ascii) : option Z :=
  match rev s with
  | lo :: hi :: p :: r =>
    if (p =? ".")%char
    then match number (rev r), decimal_digit hi, decimal_digit lo with Some v, Some h, Some l => Some (100 * v + 10 * h + l) | _, _, _ => None end
    else None
  | _ => None
  end.
Definition hundredths (s : list ascii) : option Z :=
  match s with
  | [] => None
  | c :: r => if (c =? "-")%char then match decimal r with Some v => Some (- v) | None => None end
              else if (c =? "+")%char then decimal r else decimal s
  end.
(** a line: its labels, its integers and its decimals (in hundredths), each in order *)
Definition trow : Type := list string * list Z * list Z.
Fixpoint sort_words (ws : list (list ascii)) : trow :=
  match ws with
  | [] => ([], [], [])
  | w :: r =>
    let '(l, v, d) := sort_words r in
    match integer w with
    | Some x => (l, x :: v, d)
    | None => match hundredths w with Some x => (l, v, x :: d) | None => (string_of_list_ascii w :: l, v, d) end
    end
  end.
(** brackets, slashes and tabulators are blanks *)
Definition untab (c : ascii) : ascii := if (c =? "009")%char then " "%char else tidy c.
Definition read_trow (l : list ascii) : trow := sort_words (split_words [] l).
Definition read_trace (text : list ascii) : list trow := map read_trow (split_lines [] (map untab text)).

(** ** The lines *)
Section Rows.
(** the decimals shown for the square root of an integer and for a coordinate, in hundredths *)
Variables (root angle : Z -> Z).
Variables (em : list EmCalo) (had : list HadCalo) (track : list Tk) (mu : list Mu).
Definition line (l : list string) (v d : list Z) : list trow := [("FW" :: l, v, d)].
Definition lines {A} (f : nat -> A -> list trow) (l : list A) : list trow := List.concat (mapi f l).
Definition Zn (i : nat) : Z := Z.of_nat i.
Definition bit (b : bool) : Z := if b then 1 else 0.
(** ... only for objects with positive transverse momentum *)
Definition only {A} (pt : A -> Z) (f : nat -> A -> list trow) (i : nat) (x : A) : list trow := if 0 <? pt x then f i x else [].

(** the inputs; transverse momenta are in quarters of a GeV *)
Definition position := ["pt"; "calo"; "eta"; "calo"; "phi"].
Definition track_line (i : nat) (t : Tk) : list trow :=
  line (["track"] ++ position ++ ["calo"; "ptErr"]) [Zn i; t_pt t; t_eta t; t_phi t; t_pterr t] [25 * t_pt t; angle (t_eta t); angle (t_phi t); 25 * t_pterr t].
Definition em_line (i : nat) (e : EmCalo) : list trow :=
  line (["EM"] ++ position ++ ["calo"; "ptErr"]) [Zn i; e_pt e; e_eta e; e_phi e; e_pterr e] [25 * e_pt e; angle (e_eta e); angle (e_phi e); 25 * e_pterr e].
Definition had_line (i : nat) (h : HadCalo) : list trow :=
  line (["calo"] ++ position ++ ["calo"; "emPt"; "isEM"]) [Zn i; h_pt h; h_eta h; h_phi h; h_empt h; bit (h_isem h)] [25 * h_pt h; angle (h_eta h); angle (h_phi h); 25 * h_empt h].
Definition mu_line (i : nat) (m : Mu) : list trow :=
  line ["muon"; "pt"; "muon"; "eta"; "muon"; "phi"] [Zn i; m_pt m; m_eta m; m_phi m] [25 * m_pt m; angle (m_eta m); angle (m_phi m)].
Definition input_lines : list trow :=
  lines (only t_pt track_line) track ++ lines (only e_pt em_line) em ++ lines (only h_pt had_line) had ++ lines (only m_pt mu_line) mu.

(** muons and the tracks they are linked to *)
Definition mu_link_line (i : nat) (m : Mu) : list trow :=
  match mu_match track m with
  | Some k => line ["muon"; "linked"; "to"; "track"] [Zn i; Zn k] []
  | None => line ["muon"; "not"; "linked"; "to"; "any"; "track"] [Zn i] []
  end.
(** tracks and the EM clusters they are linked to *)
Definition em_link_line (i : nat) (t : Tk) : list trow :=
  match em_match em track mu i t with
  | Some k => match nth_error em k with Some e => line ["track"; "pt"; "matched"; "to"; "em"; "calo"; "pt"] [Zn i; t_pt t; Zn k; e_pt e] [] | None => [] end
  | None => []
  end.
(** the sum of the linked tracks, as stored *)
Definition em_sum_line (k : nat) (e : EmCalo) : list trow :=
  line ["emcalo"; "pt"; "has"; "sumtk"] [Zn k; e_pt e; w16 (em_tksum em track mu k)] [].
(** the classification of an EM cluster *)
Definition em_class_line (k : nat) (e : EmCalo) : list trow :=
  let S := em_tksum_r em track mu k in let d := e_pt e - S in let s2 := e_pterr e * e_pterr e in
  let head := ["emcalo"; "pt"; "ptdiff"; "match"; "window:"; "flagged"; "as"] in
  let window := [- root (4 * s2); root (s2 + s2 / 2)] in
  if S =? 0 then (if 0 <? e_pt e then line ["emcalo"; "pt"; "flagged"; "as"; "photon"] [Zn k; e_pt e] [] else [])
  else if negb (em_class e S) then line (head ++ ["pion"]) [Zn k; e_pt e; d] window
  else if pho_pt e S =? 0 then line (head ++ ["electron"]) [Zn k; e_pt e; d] window
  else line (head ++ ["electron"; "+"; "photon"; "of"; "pt"]) [Zn k; e_pt e; d; pho_pt e S] window.
Definition ele_line (i : nat) (t : Tk) : list trow :=
  if is_ele_r em track mu i t then line ["track"; "pt"; "flagged"; "as"; "electron."] [Zn i; t_pt t] [] else [].
(** EM clusters and the hadronic clusters they are linked to (-1, -1, -1, 0 without one) *)
Definition em_had_line (k : nat) (e : EmCalo) : list trow :=
  line ["emcalo"; "pt"; "isEM"; "matched"; "to"; "hadcalo"; "pt"; "emPt"; "isEM"]
    ([Zn k; e_pt e; bit (is_em_r em track mu k e)] ++
     match best (cand_em_had had e) with
     | Some h => match nth_error had h with Some c => [Zn h; h_pt c; h_empt c; bit (h_isem c)] | None => [] end
     | None => [-1; -1; -1; 0]
     end) [].
(** the subtraction of the EM clusters; a cluster with less than 1/16 of its
    transverse momentum left is dropped, and so is an electromagnetic one with
    less than 1/8 of its EM part left, unless it has to be kept *)
Definition subtract_line (h : nat) (c : HadCalo) : list trow :=
  let E := had_emsum_r em had track mu h in let keep := had_keep_r em had track mu true h in
  line ["calo"; "pt"; "has"; "a"; "subtracted"; "pt"; "of"; "empt"; "->"; "isem"; "keep"]
    [Zn h; h_pt c; w16 (h_pt c - E); h_empt c; w16 (h_empt c - E); bit (h_isem c); bit keep] [] ++
  (if w16 (h_pt c - E) <=? h_pt c / 16 then line ["calo"; "pt"; "-->"; "discarded"; "zero"; "pt"] [Zn h; h_pt c] []
   else if h_isem c && (w16 (h_empt c - E) <=? h_empt c / 8) && negb keep then line ["calo"; "pt"; "-->"; "discarded"; "zero"; "em"] [Zn h; h_pt c] []
   else []).
(** what is left of the hadronic clusters and the tracks linked to it *)
Notation left := (had_left_pt_r em had track mu true).
Definition had_link_line (i : nat) (t : Tk) : list trow :=
  if is_ele_r em track mu i t || is_mu track mu i then [] else
  match had_match_r em had track mu true t with
  | Some h => match nth_error had h with Some c => line ["track"; "pt"; "matched"; "to"; "calo'"; "pt"] [Zn i; t_pt t; Zn h; left h c] [] | None => [] end
  | None => []
  end.
Definition neutral_line (more : bool) (h : nat) (c : HadCalo) : list trow :=
  let P := left h c in let S := had_tksum_r em had track mu true h in
  if 0 <? P then
    (if (0 <? S) && more
     then line ["calo'"; "pt"; "eta"; "has"; "a"; "sum"; "track"; "pt"; "difference"; "+-"] [Zn h; P; h_eta c; S; P - S] [25 * P; angle (h_eta c); root (had_err2_r em had track mu true h)]
     else []) ++
    line ["calo'"; "pt"; "--->"] [Zn h; P; ne_pt_r em had track mu true h c] []
  else [].

(** [more]: the program was compiled with the input classes' conversions to physical units *)
Definition trace_lines (more : bool) : list trow :=
  (if more then input_lines else []) ++
  lines (only m_pt mu_link_line) mu ++
  lines (only t_pt em_link_line) track ++ lines (only e_pt em_sum_line) em ++ lines em_class_line em ++ lines (only t_pt ele_line) track ++
  lines (only e_pt em_had_line) em ++ lines (only h_pt subtract_line) had ++
  lines (only t_pt had_link_line) track ++ lines (neutral_line more) had.
End Rows.

(** ** The decimals
    Square roots are within one hundredth and coordinates, in steps of a quarter
    of a degree, within 0.51 hundredths (43633231/10^8 hundredths of a radian are
    a quarter of a degree to eight digits). *)
Definition roots_shown (root : Z -> Z) : Prop :=
  forall n, 0 <= n < 2 ^ 31 -> 0 <= root n /\ (n = 0 -> root n = 0) /\ (0 < n -> (root n - 1) * (root n - 1) < 10000 * n < (root n + 1) * (root n + 1)).
Definition angles_shown (angle : Z -> Z) : Prop :=
  forall x, inS 10 x -> Z.abs (100000000 * angle x - 43633231 * x) <= 51000000.
