(** A reader of lines of words and decimal numbers. *)
From Coq Require Import QArith Ascii String.
From Verif Require Import Base SerText SpecHR.
Local Open Scope string_scope.
Local Open Scope list_scope.
Local Open Scope Z_scope.

(** the digits at the start of a text, and the rest *)
Fixpoint leading_digits (s : list ascii) : list Z * list ascii :=
  match s with
  | [] => ([], [])
  | c :: r => match decimal_digit c with Some v => let (ds, rest) := leading_digits r in (v :: ds, rest) | None => ([], s) end
  end.
(** digits before and after the point *)
Definition whole (l : list Z) : Z := fold_left (fun a d => 10 * a + d) l 0.
Definition fraction (l : list Z) : Q := fold_right (fun d a => (inject_Z d + a) / 10)%Q 0%Q l.
(** [-]ddd[.ddd][e+dd|e-dd] *)
Definition magnitude (s : list ascii) : option Q :=
  match leading_digits s with
  | ([], _) => None
  | (ip, r) =>
    let (fp, r) := match r with c :: r' => if (c =? ".")%char then leading_digits r' else ([], r) | [] => ([], []) end in
    let m := (inject_Z (whole ip) + fraction fp)%Q in
    match r with
    | [] => Some m
    | c :: sg :: r => if (c =? "e")%char then
        match leading_digits r with
        | ([], _) => None
        | (ds, []) => if (sg =? "-")%char then Some (m * (10 # 1) ^ (- whole ds))%Q else if (sg =? "+")%char then Some (m * (10 # 1) ^ (whole ds))%Q else None
        | _ => None
        end else None
    | _ => None
    end
  end.
Definition real (s : list ascii) : option Q :=
  match s with c :: r => if (c =? "-")%char then option_map Qopp (magnitude r) else magnitude s | [] => None end.
(** a line (colons are blanks): its words and its numbers *)
Fixpoint sort_reals (ws : list (list ascii)) : list string * list Q :=
  match ws with
  | [] => ([], [])
  | w :: r => let (l, v) := sort_reals r in match real w with Some x => (l, x :: v) | None => (string_of_list_ascii w :: l, v) end
  end.
Definition uncolon (c : ascii) : ascii := if (c =? ":")%char then " "%char else c.
Definition read_reals (text : list ascii) : list (list string * list Q) := map (fun l => sort_reals (split_words [] (map uncolon l))) (split_lines [] text).
