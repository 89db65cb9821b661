(** Specification of the human-readable pattern file: a reader that knows
    nothing about the formats (it cuts lines into words and tells integers
    from labels), and the table of rows it should find. *)
From Coq Require Import Ascii String.
From Verif Require Import Base Data PFHw SerText HumanRead.
Local Open Scope string_scope.
Local Open Scope list_scope.
Local Open Scope Z_scope.

(** ** The reader *)
(** blank-separated words; [cur]: the word being read *)
Fixpoint split_words (cur s : list ascii) : list (list ascii) :=
  match s with
  | [] => match cur with [] => [] | _ => [cur] end
  | c :: r => if (c =? " ")%char then match cur with [] => split_words [] r | _ => cur :: split_words [] r end
              else split_words (cur ++ [c]) r
  end.
Definition decimal_digit (c : ascii) : option Z :=
  let n := Z.of_nat (nat_of_ascii c) in if (48 <=? n) && (n <=? 57) then Some (n - 48) else None.
(** [number]: an unsigned decimal number (one digit at least) followed by at
    most a comma or a colon *)
Fixpoint natural (acc : Z) (s : list ascii) : option Z :=
  match s with
  | [] => Some acc
  | [c] => if (c =? ",")%char || (c =? ":")%char then Some acc else match decimal_digit c with Some v => Some (acc * 10 + v) | None => None end
  | c :: r => match decimal_digit c with Some v => natural (acc * 10 + v) r | None => None end
  end.
Definition number (s : list ascii) : option Z :=
  match s with c :: _ => match decimal_digit c with Some _ => natural 0 s | None => None end | [] => None end.
(** an integer with an optional sign *)
Definition integer (s : list ascii) : option Z :=
  match s with
  | [] => None
  | c :: r => if (c =? "-")%char then match number r with Some v => Some (- v) | None => None end
              else if (c =? "+")%char then number r else number s
  end.
(** a row: its labels and its integers, in order *)
Definition row : Type := list string * list Z.
Fixpoint labels (ws : list (list ascii)) : list string :=
  match ws with [] => [] | w :: r => match integer w with Some _ => labels r | None => string_of_list_ascii w :: labels r end end.
Fixpoint integers (ws : list (list ascii)) : list Z :=
  match ws with [] => [] | w :: r => match integer w with Some v => v :: integers r | None => integers r end end.
Definition read_row (l : list ascii) : row := let ws := split_words [] l in (labels ws, integers ws).
Definition read_table (text : list ascii) : list row := map read_row (split_lines [] text).

(** ** What the file should say about events numbered from [n] *)
Definition had_row (i : nat) (o : HadCalo) : row := (["calo"; "hwPt"; "hwEmPt"; "hwEta"; "hwPhi"; "hwIsEM"], [Z.of_nat i; h_pt o; h_empt o; h_eta o; h_phi o; if h_isem o then 1 else 0]).
Definition em_row (i : nat) (o : EmCalo) : row := (["em"; "hwPt"; "hwPtErr"; "hwEta"; "hwPhi"], [Z.of_nat i; e_pt o; e_pterr o; e_eta o; e_phi o]).
Definition tk_row (i : nat) (o : Tk) : row := (["track"; "hwPt"; "hwPtErr"; "hwEta"; "hwPhi"; "hwZ0"], [Z.of_nat i; t_pt o; t_pterr o; t_eta o; t_phi o; t_z0 o]).
Definition mu_row (i : nat) (o : Mu) : row := (["muon"; "hwPt"; "hwPtErr"; "hwEta"; "hwPhi"], [Z.of_nat i; m_pt o; m_pterr o; m_eta o; m_phi o]).
Definition ch_row (i : nat) (o : PFCh) : row := (["charged"; "pf"; "hwPt"; "hwEta"; "hwPhi"; "hwId"; "hwZ0"], [Z.of_nat i; c_pt o; c_eta o; c_phi o; c_id o; c_z0 o]).
Definition ne_row (kind : string) (i : nat) (o : PFNe) : row := ([kind; "pf"; "hwPt"; "hwEta"; "hwPhi"; "hwId"], [Z.of_nat i; n_pt o; n_eta o; n_phi o; n_id o]).
Definition pfmu_row (i : nat) (o : PFCh) : row := (["muon"; "pf"; "hwPt"; "hwEta"; "hwPhi"; "hwId"], [Z.of_nat i; c_pt o; c_eta o; c_phi o; c_id o]).
Definition event_rows (n : nat) (e : hrev) : list row :=
  [(["Frame"], [Z.of_nat n])] ++
  mapi had_row (he_had e) ++ mapi em_row (he_em e) ++ mapi tk_row (he_tk e) ++ mapi mu_row (he_mu e) ++
  mapi ch_row (o_ch (he_out e)) ++ mapi (ne_row "photon") (o_pho (he_out e)) ++ mapi (ne_row "neutral") (o_ne (he_out e)) ++ mapi pfmu_row (o_mu (he_out e)) ++
  [([], [])].
Definition table (events : list hrev) : list row := concat (mapi event_rows events).

(** fields in the range of their types *)
Definition hrev_ok (e : hrev) : Prop :=
  Forall em_ok (he_em e) /\ Forall had_ok (he_had e) /\ Forall tk_ok (he_tk e) /\ Forall mu_ok (he_mu e) /\
  Forall ch_ok (o_ch (he_out e)) /\ Forall ne_ok (o_pho (he_out e)) /\ Forall ne_ok (o_ne (he_out e)) /\ Forall ch_ok (o_mu (he_out e)).
(** the array sizes of a build configuration (NPHOTON = NEMCALO) *)
Definition hrev_sized (c : config) (e : hrev) : Prop :=
  length (he_em e) = NEMCALO c /\ length (he_had e) = NCALO c /\ length (he_tk e) = NTRACK c /\ length (he_mu e) = NMU c /\
  length (o_ch (he_out e)) = NTRACK c /\ length (o_pho (he_out e)) = NEMCALO c /\ length (o_ne (he_out e)) = NSELCALO c /\ length (o_mu (he_out e)) = NMU c.
(** everything but the track quality, the puppi pt and the muons' z0 *)
Definition printed (e : hrev) : hrev :=
  mkHrev (he_em e) (he_had e) (map (fun t => mkTk (t_pt t) (t_pterr t) (t_eta t) (t_phi t) (t_z0 t) false) (he_tk e)) (he_mu e)
    (mkOut (o_ch (he_out e)) (map (fun n => mkNe (n_pt n) (n_eta n) (n_phi n) (n_id n) 0) (o_pho (he_out e)))
       (map (fun n => mkNe (n_pt n) (n_eta n) (n_phi n) (n_id n) 0) (o_ne (he_out e)))
       (map (fun c => mkCh (c_pt c) (c_eta c) (c_phi c) (c_id c) 0) (o_mu (he_out e)))).
(** array sizes that an unsigned int can index *)
Definition cfg_fits (c : config) : Prop := Forall (fun n => Z.of_nat n < 2 ^ 32) [NEMCALO c; NCALO c; NTRACK c; NMU c; NSELCALO c].
