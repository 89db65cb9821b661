(** Characters of the pattern files (fprintf formats of pattern_serializer.cpp)
    and a reader for them.  The reader is specification: it is what the board
    software has to do to get the frames back. *)
From Coq Require Import Ascii String.
From Verif Require Import Base Data Serializer.
Local Open Scope list_scope.

Definition chars (s : string) : list ascii := list_ascii_of_string s.
Definition newline : ascii := "010"%char.

(** one digit, base up to 16, lower case *)
Definition digit (d : Z) : ascii :=
  ascii_of_nat (Z.to_nat (if d <? 10 then 48 + d else 87 + d)).
(** %u, at most [fuel] digits *)
Fixpoint dec (fuel : nat) (n : Z) : list ascii :=
  match fuel with
  | O => []
  | S f => (if n <? 10 then [] else dec f (n / 10)) ++ [digit (n mod 10)]
  end.
(** %0<w>u of an unsigned 32-bit value (at most ten digits) *)
Definition dec_pad (w : nat) (n : Z) : list ascii :=
  let s := dec 10 n in repeat "0"%char (w - length s) ++ s.
(** %0<w>x of a value below 16^w *)
Fixpoint hex (w : nat) (n : Z) : list ascii :=
  match w with
  | O => []
  | S w' => hex w' (n / 16) ++ [digit (n mod 16)]
  end.

(** pattern_serializer.cpp:57-61 *)
Definition mp7_line_text (l : line) : list ascii :=
  chars "Frame " ++ dec_pad 4 (fst l) ++ chars " :" ++ flat_map (fun w => chars " 1v" ++ hex 8 w) (snd l) ++ [newline].
(** pattern_serializer.cpp:12-17 *)
Definition mp7_header (board : string) (nlinks : nat) : list ascii :=
  chars "Board " ++ chars board ++ [newline] ++
  chars " Quad/Chan :    " ++ flat_map (fun i => chars "q" ++ dec_pad 2 (Z.of_nat (i / 4)) ++ chars "c" ++ dec_pad 1 (Z.of_nat (i mod 4)) ++ chars "      ") (seq 0 nlinks) ++ [newline] ++
  chars "      Link :     " ++ flat_map (fun i => dec_pad 2 (Z.of_nat i) ++ chars "         ") (seq 0 nlinks) ++ [newline].
Definition mp7_text (board : string) (nlinks : nat) (ls : list line) : list ascii :=
  mp7_header board nlinks ++ flat_map mp7_line_text ls.

(** pattern_serializer.cpp:212-217, 226-228 *)
Definition ctp7_line_text (l : line) : list ascii :=
  chars "0x" ++ hex 5 (fst l) ++ flat_map (fun w => chars " 0x" ++ hex 8 w) (snd l) ++ [newline].
(** pattern_serializer.cpp:183-188; [ruler] is the row of 120 '=' *)
Definition ruler : list ascii := repeat "="%char 120 ++ [newline].
Definition ctp7_header (isInput : bool) (nchann_max : nat) : list ascii :=
  ruler ++ chars (if isInput then "Input " else "Output ") ++
  flat_map (fun i => chars "LINK_" ++ dec_pad 2 (Z.of_nat i) ++ chars " ") (seq 0 nchann_max) ++ [newline] ++ ruler.
Definition ctp7_text (isInput : bool) (nchann_max : nat) (ls : list line) : list ascii :=
  ctp7_header isInput nchann_max ++ flat_map ctp7_line_text ls.

(** ** The reader *)
Definition digit_val (c : ascii) : option Z :=
  let n := Z.of_nat (nat_of_ascii c) in
  if (48 <=? n) && (n <=? 57) then Some (n - 48)
  else if (97 <=? n) && (n <=? 102) then Some (n - 87) else None.
(** value of a digit string, most significant digit first *)
Fixpoint number (base acc : Z) (s : list ascii) : option Z :=
  match s with
  | [] => Some acc
  | c :: r => match digit_val c with Some v => number base (acc * base + v) r | None => None end
  end.
Fixpoint strip (p s : list ascii) : option (list ascii) :=
  match p, s with
  | [], _ => Some s
  | c :: p', x :: s' => if (c =? x)%char then strip p' s' else None
  | _, [] => None
  end.
(** up to the first [c]: what is before and what is after it *)
Fixpoint until (c : ascii) (s : list ascii) : list ascii * list ascii :=
  match s with
  | [] => ([], [])
  | x :: r => if (x =? c)%char then ([], r) else let '(a, b) := until c r in (x :: a, b)
  end.
(** a sequence of [mark] followed by 8 hexadecimal digits *)
Fixpoint words (fuel : nat) (mark : list ascii) (s : list ascii) : option (list Z) :=
  match fuel, s with
  | _, [] => Some []
  | O, _ => None
  | S f, _ =>
      match strip mark s with
      | Some r => match number 16 0 (firstn 8 r), words f mark (skipn 8 r) with
                  | Some v, Some vs => if (length (firstn 8 r) =? 8)%nat then Some (v :: vs) else None
                  | _, _ => None
                  end
      | None => None
      end
  end.
(** the lines of a text, each terminated by a newline *)
Fixpoint split_lines (cur s : list ascii) : list (list ascii) :=
  match s with
  | [] => []
  | c :: r => if (c =? newline)%char then cur :: split_lines [] r else split_lines (cur ++ [c]) r
  end.
Definition mp7_parse_line (s : list ascii) : option line :=
  match strip (chars "Frame ") s with
  | Some r => let '(num, rest) := until " "%char r in
              match number 10 0 num, strip (chars ":") rest with
              | Some f, Some body => match words (length body) (chars " 1v") body with Some ws => Some (f, ws) | None => None end
              | _, _ => None
              end
  | None => None
  end.
Definition ctp7_parse_line (s : list ascii) : option line :=
  match strip (chars "0x") s with
  | Some r => match number 16 0 (firstn 5 r), words (length r) (chars " 0x") (skipn 5 r) with
              | Some f, Some ws => Some (f, ws)
              | _, _ => None
              end
  | None => None
  end.
Fixpoint all_some {A} (l : list (option A)) : option (list A) :=
  match l with
  | [] => Some []
  | Some x :: r => match all_some r with Some xs => Some (x :: xs) | None => None end
  | None :: _ => None
  end.
(** skip the three header lines, read the rest *)
Definition mp7_read (s : list ascii) : option (list line) := all_some (map mp7_parse_line (skipn 3 (split_lines [] s))).
Definition ctp7_read (s : list ascii) : option (list line) := all_some (map ctp7_parse_line (skipn 3 (split_lines [] s))).
