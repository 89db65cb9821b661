(** The conversions of C's fprintf used by the testbench (%d, %u and %lu with the
    flags "space", "+", "0" and a minimum width), as an interpreter of format
    strings, so that the models below quote the formats of the code. *)
From Coq Require Import Ascii String.
From Verif Require Import Base SerText.
Local Open Scope list_scope.
Local Open Scope Z_scope.

Inductive flag := NoFlag | SpaceFlag | PlusFlag | ZeroFlag.
(** the sign and digits of an int (at most ten digits) *)
Definition sign_of (fl : flag) (x : Z) : list ascii :=
  if x <? 0 then ["-"%char] else match fl with SpaceFlag => [" "%char] | PlusFlag => ["+"%char] | _ => [] end.
(** one conversion: right-justified in [w] characters, with zeros after the
    sign under the flag "0" and blanks before it otherwise *)
Definition conv (fl : flag) (w : nat) (x : Z) : list ascii :=
  let sg := sign_of fl x in let ds := dec 10 (Z.abs x) in
  match fl with
  | ZeroFlag => sg ++ repeat "0"%char (w - length (sg ++ ds)) ++ ds
  | _ => repeat " "%char (w - length (sg ++ ds)) ++ sg ++ ds
  end.
(** [st]: outside a conversion ([None]), or the flag and width read so far *)
Fixpoint printf_aux (st : option (flag * nat)) (f : list ascii) (args : list Z) : list ascii :=
  match f with
  | [] => []
  | c :: r =>
    match st with
    | None => if (c =? "%")%char then printf_aux (Some (NoFlag, O)) r args else c :: printf_aux None r args
    | Some (fl, w) =>
      if (c =? " ")%char then printf_aux (Some (SpaceFlag, w)) r args
      else if (c =? "+")%char then printf_aux (Some (PlusFlag, w)) r args
      else if (c =? "0")%char && (w =? 0)%nat then printf_aux (Some (ZeroFlag, w)) r args
      else if (c =? "l")%char then printf_aux (Some (fl, w)) r args
      else if (c =? "d")%char || (c =? "u")%char
      then match args with [] => [] | x :: xs => conv fl w x ++ printf_aux None r xs end
      else printf_aux (Some (fl, (w * 10 + (nat_of_ascii c - 48))%nat)) r args
    end
  end.
Definition printf (f : string) (args : list Z) : list ascii := printf_aux None (chars f) args.
(** the formats ending in "\n" *)
Definition printf_nl (f : string) (args : list Z) : list ascii := printf f args ++ [newline].
