(** Model of utils/test_utils.cpp (return values; the message printed on a
    mismatch is in Console.v). *)
From Verif Require Import Base Data.

(** test_utils.cpp:4-16 *)
Definition had_equals (r o : HadCalo) : bool :=
  if h_pt r =? 0 then h_pt o =? 0
  else (h_pt r =? h_pt o) && (h_empt r =? h_empt o) && (h_eta r =? h_eta o) && (h_phi r =? h_phi o)
       && Bool.eqb (h_isem r) (h_isem o).
(** test_utils.cpp:17-29 *)
Definition em_equals (r o : EmCalo) : bool :=
  if e_pt r =? 0 then e_pt o =? 0
  else (e_pt r =? e_pt o) && (e_pterr r =? e_pterr o) && (e_eta r =? e_eta o) && (e_phi r =? e_phi o).
(** test_utils.cpp:31-43 (hwTightQuality is not compared) *)
Definition track_equals (r o : Tk) : bool :=
  if t_pt r =? 0 then t_pt o =? 0
  else (t_pt r =? t_pt o) && (t_pterr r =? t_pterr o) && (t_eta r =? t_eta o) && (t_phi r =? t_phi o)
       && (t_z0 r =? t_z0 o).
(** test_utils.cpp:44-56 *)
Definition mu_equals (r o : Mu) : bool :=
  if m_pt r =? 0 then m_pt o =? 0
  else (m_pt r =? m_pt o) && (m_pterr r =? m_pterr o) && (m_eta r =? m_eta o) && (m_phi r =? m_phi o).
(** test_utils.cpp:58-74 *)
Definition pf_equals_ch (r o : PFCh) : bool :=
  if c_pt r =? 0 then c_pt o =? 0
  else (c_pt r =? c_pt o) && (c_eta r =? c_eta o) && (c_phi r =? c_phi o) && (c_id r =? c_id o) && (c_z0 r =? c_z0 o).
(** test_utils.cpp:75-90 (hwPtPuppi is not compared) *)
Definition pf_equals_ne (r o : PFNe) : bool :=
  if n_pt r =? 0 then n_pt o =? 0
  else (n_pt r =? n_pt o) && (n_eta r =? n_eta o) && (n_phi r =? n_phi o) && (n_id r =? n_id o).

(** test_utils.h:10-15 *)
Definition count_nonzero {T} (pt : T -> Z) (objs : list T) : Z :=
  fold_left (fun ret o => ret + b2z (pt o >? 0)) objs 0.
