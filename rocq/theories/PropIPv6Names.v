(** C96: the names of the errors reported for IPv6 addresses. *)
From Coq Require Import Ascii String.
From Coq Require Import NArith List.
From Verif Require Import PyStr Codec Env HostModel ExampleEnv IPv6Names.
From Verif Require Import SpecText SpecHost SpecHostReports SpecIPv6Names.
Import ListNotations.
Open Scope N_scope.

(** A text in brackets without dots that does not begin with ":::" is reported with the
    standard's name, except that a text whose last colon would begin a ninth piece may be
    reported as IPv6-too-many-pieces. *)
Theorem C96_ipv6_names_partial :
  forall E s o f, mem 46 s = false -> firstn 3 s <> [58; 58; 58] ->
    fst (host_parse E (91 :: s ++ [93]) o) = std_host_reports f (91 :: s ++ [93]) o \/
    late_colon s /\ fst (host_parse E (91 :: s ++ [93]) o) = [VIPv6TooManyPieces].
Proof. exact v6_host_names. Qed.
Print Assumptions C96_ipv6_names_partial.
(** A text without the closing bracket is reported with the standard's name. *)
Theorem C96_unclosed_partial :
  forall E t o f, (forall p, t <> p ++ [93]) -> fst (host_parse E (91 :: t) o) = std_host_reports f (91 :: t) o.
Proof. exact v6_unclosed. Qed.
Print Assumptions C96_unclosed_partial.
Example C96_names_case :
  (forall s v, In (s, v) [($"1", VIPv6TooFewPieces); ($":1", VIPv6InvalidCompression); ($"1::2::3", VIPv6MultipleCompression);
     ($"1:2:3:4:5:6:7:8:9", VIPv6TooManyPieces); ($"1:g::", VIPv6InvalidCP); ($"1:", VIPv6InvalidCP); ($"12345::", VIPv6InvalidCP)] ->
     mem 46 s = false /\ firstn 3 s <> [58; 58; 58] /\ fst (host_parse ascii_env (91 :: s ++ [93]) false) = [v]) /\
  fst (host_parse ascii_env $"[::1" false) = [VIPv6Unclosed] /\
  (** the exception *)
  late_colon $"1:2:3:4:5:6:7:8:" /\ late_colon $"::3:4:5:6:7:8:9:" /\ late_colon $"1:2:3:4:5:6:7::" /\
  fst (host_parse ascii_env $"[1:2:3:4:5:6:7::]" false) = [VIPv6TooManyPieces] /\
  std_host_reports (fun d => Some d) $"[1:2:3:4:5:6:7::]" false = [] /\
  (** texts with dots *)
  fst (host_parse ascii_env $"[::1.2.311.]" false) = [VIPv4inIPv6InvalidCP] /\
  std_host_reports (fun d => Some d) $"[::1.2.311.]" false = [VIPv4inIPv6OutOfRange].
Proof.
  split; [|split; [vm_compute; reflexivity|]].
  - intros s v H. repeat (destruct H as [H|H]; [injection H as <- <-; split; [reflexivity|split; [discriminate|vm_compute; reflexivity]]|]). destruct H.
  - split; [split; [now exists $"1:2:3:4:5:6:7:8"|right; split; [reflexivity|discriminate]]|].
    split; [split; [now exists $"::3:4:5:6:7:8:9"|left; split; reflexivity]|].
    split; [split; [now exists $"1:2:3:4:5:6:7:"|right; split; [reflexivity|discriminate]]|].
    repeat split; vm_compute; reflexivity.
Qed.
