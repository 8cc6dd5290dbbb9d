(* C62: the calls that were made on a compiler object do not show in the
   program that it prints.  `compile_files` is what a compiler object does that
   is created for the files; `history` is any sequence of calls. *)
From Coq Require Import ZArith NArith List Bool String Permutation.
Require Import Verif.Base Verif.Asn1Model Verif.GenModel Verif.ResolveModel Verif.TokenModel Verif.ParserModel Verif.ModuleModel Verif.DefinitionModel
  Verif.CompilerSpec Verif.ObjectProofs Verif.ParserFacts Verif.ObjectFacts Verif.LinkFacts Verif.LinkSpec Verif.OrderSpec Verif.SessionModel Verif.SessionSpec Verif.SessionProofs Verif.SessionReplay Verif.SessionFacts Verif.SessionAnswers.
Import ListNotations.
Open Scope string_scope.
Open Scope list_scope.

(* ===== C62 Histories of calls on a compiler object ===== *)
(* The program hampi-asn1c, which adds the modules of the files one by one,
   resolves them, reading the objects of each module in its turn, and
   generates, prints what compile_files says. *)
Theorem C62_command : forall num E depth fuel files parsed orders,
  add_files num files = Ok parsed -> Permutation (map fst parsed) (map fst orders) ->
  forall prog, hampi_asn1c num E depth fuel files orders = Ok prog <-> compile_files num E depth fuel files orders = Ok prog.
Proof. exact first_session. Qed.
Print Assumptions C62_command.
Example C62_case_command : add_files is_digit (map chars_of_text C62_texts) = Ok C62_parsed /\ Permutation (map fst C62_parsed) (map fst C62_orders) /\
  hampi_asn1c is_digit checked_env 2 11 (map chars_of_text C62_texts) C62_orders = Ok C62_program.
Proof. exact C62_command_proof. Qed.
(* add_module answers whether a module of that name has been added before, whatever
   was called in between and however it ended, unless in a panic: then there are
   fewer answers than calls. *)
Theorem C62_add_answers : forall num E depth fuel h m,
  List.length (snd (history num E depth fuel (h ++ [Add m]) new_compiler)) = S (List.length h) ->
  exists b, last (snd (history num E depth fuel (h ++ [Add m]) new_compiler)) (Resolved Panic) = Added b /\
    (b = true <-> exists m', In (Add m') h /\ pm_name m' = pm_name m).
Proof. exact add_answers. Qed.
Print Assumptions C62_add_answers.
(* the seventh call of C62_history, see C62_case *)
Example C62_case_answers : exists h m rest, C62_history = h ++ Add m :: rest /\ List.length h = 6%nat /\
  List.length (snd (history is_digit checked_env 2 11 (h ++ [Add m]) new_compiler)) = S (List.length h) /\
  last (snd (history is_digit checked_env 2 11 (h ++ [Add m]) new_compiler)) (Resolved Panic) = Added true.
Proof.
  exists (firstn 6 C62_history), (match nth_error C62_history 6 with Some (Add m) => m | _ => mkParsedModule "" [] [] end), (skipn 7 C62_history).
  split; [vm_compute; reflexivity|]. split; [reflexivity|]. split; vm_compute; reflexivity.
Qed.
(* A call of resolve_modules that comes before all modules are added fails, and
   leaves nothing behind: modules may be added in any order, more than once,
   with any number of such calls in between. *)
Theorem C62_too_early : forall num E depth fuel files parsed orders h,
  add_files num files = Ok parsed -> Permutation (map fst parsed) (map fst orders) ->
  Forall (early parsed) h -> all_added parsed h -> only_incomplete h ->
  exists c answers, history num E depth fuel h new_compiler = (c, answers) /\ alive answers /\
    forall prog, snd (history num E depth fuel [Resolve orders; Generate] c) = [Resolved (Ok tt); Printed (Ok prog)] <->
                 compile_files num E depth fuel files orders = Ok prog.
Proof. exact retried. Qed.
Print Assumptions C62_too_early.
Example C62_case_too_early : Forall (early C62_parsed) C62_retry /\ all_added C62_parsed C62_retry /\ only_incomplete C62_retry /\
  run (C62_retry ++ [Resolve C62_orders; Generate]) =
    [Added false; Resolved Err; Added false; Resolved Err; Added false; Resolved (Ok tt); Printed (Ok C62_program)].
Proof. exact C62_retry_proof. Qed.
(* After any calls of add_module and resolve_modules, whether these succeeded
   or failed, and in whatever order they went through the definitions,
   resolve_modules succeeds and generate prints the program of the files, if
   a compiler object that is created for them prints it.  Partial: of object
   sets with at most one element before and one behind the `...`, see
   C62_resolve_twice_refuted. *)
Theorem C62_incremental_partial : forall num E depth fuel files parsed modules orders prog,
  add_files num files = Ok parsed -> link num parsed [] (map fst orders) = Ok modules -> Permutation (map fst parsed) (map fst orders) ->
  well_named modules -> items_apart modules -> settled depth modules -> small_sets modules ->
  valid_orders modules orders -> all_resolved modules orders ->
  compile_files num E depth fuel files orders = Ok prog ->
  forall h c answers, Forall (early parsed) h -> all_added parsed h ->
  history num E depth fuel h new_compiler = (c, answers) -> alive answers ->
  snd (history num E depth fuel [Resolve orders; Generate] c) = [Resolved (Ok tt); Printed (Ok prog)].
Proof. exact replayed. Qed.
Print Assumptions C62_incremental_partial.
Example C62_case : add_files is_digit (map chars_of_text C62_texts) = Ok C62_parsed /\ link is_digit C62_parsed [] (map fst C62_orders) = Ok C62_modules /\
  Permutation (map fst C62_parsed) (map fst C62_orders) /\
  well_named C62_modules /\ items_apart C62_modules /\ settled 2 C62_modules /\ small_sets C62_modules /\
  valid_orders C62_modules C62_orders /\ all_resolved C62_modules C62_orders /\
  compile_files is_digit checked_env 2 11 (map chars_of_text C62_texts) C62_orders = Ok C62_program /\ (List.length C62_program >= 5)%nat /\
  Forall (early C62_parsed) C62_history /\ all_added C62_parsed C62_history /\
  run C62_history = [Added false; Resolved Err; Added false; Resolved (Ok tt); Added false; Resolved Err; Added true; Resolved (Ok tt)].
Proof. exact C62_case_proof. Qed.
(* Every call turns the object sets round, and the first object decides on the
   types of the components. *)
Theorem C62_resolve_twice_refuted : exists m orders, first_of two_text = Add m /\
  run [Add m; Resolve orders; Generate] = [Added false; Resolved (Ok tt); Printed (Ok (frames_of "FrameCount" [("FrameCount", GOpen true [])]))] /\
  run [Add m; Resolve orders; Resolve orders; Generate] = [Added false; Resolved (Ok tt); Resolved (Ok tt); Printed (Ok (frames_of "Number" []))].
Proof. exact C62_resolve_twice_proof. Qed.
Print Assumptions C62_resolve_twice_refuted.
(* An object that cannot be read makes the first call fail, and is missing from
   its set when the second succeeds. *)
Theorem C62_lost_objects_refuted : exists m orders, first_of bad_text = Add m /\
  run [Add m; Resolve orders; Resolve orders; Generate] = [Added false; Resolved Err; Resolved (Ok tt); Printed (Ok
    [("Frame", GSequence false None [mkField "id" None true "Number"; mkField "value" None false "FrameValue"]);
     ("Number", GInteger 8 false (Some 0%Z) (Some 255%Z) false);
     ("FrameValue", GOpen true [mkVariant "One" 1 false "Number"])])].
Proof. exact C62_lost_objects_proof. Qed.
Print Assumptions C62_lost_objects_refuted.
(* The definitions of a module that is replaced stay. *)
Theorem C62_replaced_module_refuted : exists m m', first_of old_text = Add m /\ first_of new_text = Add m' /\ pm_name m = pm_name m' /\
  run [Add m; Resolve [("M", ["A"; "B"])]; Add m'; Resolve [("M", ["A"])]; Generate] =
    [Added false; Resolved (Ok tt); Added true; Resolved (Ok tt); Printed (Ok [("A", GInteger 8 false (Some 0%Z) (Some 255%Z) false); ("B", GNull)])] /\
  run [Add m'; Resolve [("M", ["A"])]; Generate] =
    [Added false; Resolved (Ok tt); Printed (Ok [("A", GInteger 8 false (Some 0%Z) (Some 255%Z) false)])].
Proof. exact C62_replaced_proof. Qed.
Print Assumptions C62_replaced_module_refuted.
(* A second call of generate prints what the first has printed, and all types
   again. *)
Theorem C62_generate_twice_refuted : exists m p, first_of again_text = Add m /\
  p = [("A", GSequence false None [mkField "b" None false "BOOLEAN_2"]); ("BOOLEAN_2", GBoolean)] /\
  run [Add m; Resolve [("M", ["A"])]; Generate; Generate] = [Added false; Resolved (Ok tt); Printed (Ok p); Printed (Ok (p ++
    [("A", GSequence false None [mkField "b" None false "BOOLEAN_3"]); ("BOOLEAN_2", GBoolean); ("BOOLEAN_3", GBoolean)]))].
Proof. exact C62_generate_twice_proof. Qed.
Print Assumptions C62_generate_twice_refuted.
