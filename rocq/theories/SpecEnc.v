(** Specification of the MP7 word layout, written as plain arithmetic and
    independent of the model's pack/unpack functions.
    mp7pf_encoding.h:2-37 and simple_fullpfalgo.cpp:558-573 document it. *)
From Verif Require Import Base Data.

(** two 32-bit words per object: word 0 = pt in bits 0-15 and a second 16-bit
    (or id) field above; word 1 = eta in bits 0-9, phi in bits 10-19, extras above.
    A negative field is stored as its residue modulo its width. *)
Definition em_words (e : EmCalo) : list Z :=
  [ e_pt e mod 65536 + 65536 * (e_pterr e mod 65536);
    e_eta e mod 1024 + 1024 * (e_phi e mod 1024) ].
Definition had_words (h : HadCalo) : list Z :=
  [ h_pt h mod 65536 + 65536 * (h_empt h mod 65536);
    h_eta h mod 1024 + 1024 * (h_phi h mod 1024) + 1048576 * (if h_isem h then 1 else 0) ].
Definition tk_words (t : Tk) : list Z :=
  [ t_pt t mod 65536 + 65536 * (t_pterr t mod 65536);
    t_eta t mod 1024 + 1024 * (t_phi t mod 1024) + 1048576 * (t_z0 t mod 1024)
      + 1073741824 * (if t_tight t then 1 else 0) ].
Definition mu_words (m : Mu) : list Z :=
  [ m_pt m mod 65536 + 65536 * (m_pterr m mod 65536);
    m_eta m mod 1024 + 1024 * (m_phi m mod 1024) ].
Definition ch_words (c : PFCh) : list Z :=
  [ c_pt c mod 65536 + 65536 * (c_id c mod 8);
    c_eta c mod 1024 + 1024 * (c_phi c mod 1024) + 1048576 * (c_z0 c mod 1024) ].
Definition ne_words (n : PFNe) : list Z :=
  [ n_pt n mod 65536 + 65536 * (n_id n mod 8);
    n_eta n mod 1024 + 1024 * (n_phi n mod 1024) ].

(** an object as read back next to an old one: everything but hwPtPuppi is new *)
Definition with_puppi_of (old n : PFNe) : PFNe := mkNe (n_pt n) (n_eta n) (n_phi n) (n_id n) (n_puppi old).
Fixpoint zip_puppi (old n : list PFNe) : list PFNe :=
  match old, n with o :: old', x :: n' => with_puppi_of o x :: zip_puppi old' n' | _, _ => [] end.
