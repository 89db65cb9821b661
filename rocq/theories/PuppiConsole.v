(** What the PUPPI test program prints on the console: puppi/simple_pfpuppi_test.cpp.
    The messages of the input reader are those of Console.v. *)
From Coq Require Import Ascii String.
From Verif Require Import Base Data PFHw PFRef Puppi Bhv Vtx SerText Printf Discrete Convert DiscreteIO RegionLoop PuppiTest Console.
Local Open Scope string_scope.
Local Open Scope list_scope.
Local Open Scope Z_scope.

(** simple_pfpuppi_test.cpp:88 (%i is written %d, the same conversion) *)
Definition pp_line (l : Z * Z * Z) : list ascii := let '(pt, hw, ref) := l in printf_nl "hwpt = %d, hwptpuppi = %d, hwptpuppi-ref = %d " [pt; hw; ref].
(** simple_pfpuppi_test.cpp:76, 87-90 *)
Definition pp_text (test : nat) (lines : list (Z * Z * Z)) : list ascii :=
  printf_nl "test %d" [Z.of_nat test] ++ List.concat (map pp_line lines) ++ printf_nl "end of test ---- %d" [Z.of_nat test].
(** simple_pfpuppi_test.cpp:61-91: [pp_body] with its text *)
Definition pp_body_say (c : config) (tab : list Z) (nall : nat) (mr : nat -> pfmem) (vold : nat -> vtxobj) (test : nat) (st : list (list (Z * Z * Z)) * list ascii) (r : fwregion)
    : res (list (list (Z * Z * Z)) * list ascii * option Z) :=
  let '(out, text) := st in
  do (new, ex) <- pp_body c tab nall mr vold test [] r;
  Ok (out ++ new, text ++ List.concat (map (pp_text test) new), ex).
(** simple_pfpuppi_test.cpp:13-96: the exit code, the numbers printed and the text on the console *)
Definition pp_main_say (c : config) (special : Z -> Z) (tail : res bool) (fuel : nat) (tab : list Z) (nall : nat) (mr : nat -> pfmem) (vold : nat -> vtxobj) (g : Z) (arr : fwregion) (file : option (list Z))
    : option (res (Z * list (list (Z * Z * Z)) * list ascii)) :=
  match inputs_open g file with
  | UB k => Some (UB k)
  | Ok s =>
    match region_loop_say c special tail fuel clear_arrays (fun '(out, text) say => (out, text ++ say)) (pp_body_say c tab nall mr vold) PP_NTEST 1 ([], []) arr s with
    | None => None
    | Some (UB k) => Some (UB k)
    | Some (Ok ((out, text), _)) => Some (Ok (0, out, text))
    end
  end.
