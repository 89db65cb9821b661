(** C86: the console of the PUPPI test program. *)
From Coq Require Import Ascii String.
From Verif Require Import Base Data PFHw PFRef Puppi SpecPuppi Bhv Vtx SerText HumanRead SpecHR Discrete Convert DiscreteIO SpecIO RegionLoop SpecTest PuppiTest SpecPuppiTest Console SpecConsole
  PuppiConsole SpecPuppiConsole PuppiConsoleProofs Props_PFTest Props_PuppiTest.
Local Open Scope string_scope.
Local Open Scope list_scope.
Local Open Scope Z_scope.

(** Printing changes nothing: the program with its output is undefined exactly if it is without.  When it
    ends, the console, read line by line, announces the events and the regions and holds the tests in
    order, and the two puppi pts of a neutral are equal and right ([report]). *)
Theorem C86_console : forall c special tab nall mr vold g arr evs, table_ok tab -> arrays_ok c arr -> Forall good_event evs ->
  exists N, forall fuel, (N <= fuel)%nat ->
    match pp_main c special (Ok true) fuel tab nall mr vold g arr (Some (dump evs)) with
    | Some (Ok (code, out)) => exists text, pp_main_say c special (Ok true) fuel tab nall mr vold g arr (Some (dump evs)) = Some (Ok (0, out, text)) /\
        read_console text = puppi_story 1 (flat_map event_news evs) out /\ code = 0 /\ length out = length (tested c special PP_NTEST evs) /\
        forall i r, nth_error (tested c special PP_NTEST evs) i = Some r -> exists lines, nth_error out i = Some lines /\ report c tab nall (mr (1 + i)%nat) (vold (1 + i)%nat) r lines
    | Some (UB k) => pp_main_say c special (Ok true) fuel tab nall mr vold g arr (Some (dump evs)) = Some (UB k)
    | None => False
    end.
Proof. exact c86. Qed.
Print Assumptions C86_console.

(** two events in a configuration with 64 tracks (the other hypotheses are met by the inputs of [C68_hyp]) *)
Example C86_hyp : table_ok ptx_tab /\
  match pp_main_say (mkCfg 64 5 2 5 4) (fun x => x) (Ok true) 20 ptx_tab NALLTRACK tx_mem (fun _ => mkVtx 0 0 0 0) 0 (tx_arr (mkCfg 64 5 2 5 4)) (Some (dump [tx_event 7 tx_good; tx_event 8 tx_good])) with
  | Some (Ok (_, _, text)) => let l := read_console text in Some (firstn 5 l, length l, last l ([], []))
  | _ => None
  end = Some ([(["Beginning"; "of"; "run"; "lumi"; "event"], [1; 2; 7]); (["Read"; "region"; "with"; "tracks,"; "em"; "calo,"; "had"; "calo,"; "muons"], [0; 2; 1; 1; 1]);
               (["test"], [1]); (["hwpt"; "="; "hwptpuppi"; "="; "hwptpuppi-ref"; "="], [100; 100; 100]); (["hwpt"; "="; "hwptpuppi"; "="; "hwptpuppi-ref"; "="], [0; 0; 0])], 26%nat,
              (["end"; "of"; "test"; "----"], [2])).
Proof. split; [exact (proj1 C68_hyp)|]. vm_compute. reflexivity. Qed.
