(** C134: what a reference with a path means against a file URL. *)
From Coq Require Import Ascii String.
From Coq Require Import NArith ZArith Bool Arith Lia List.
From Verif Require Import PyStr PyInt Codec Env HostModel UrlRecord Parser SpecText SpecHost.
From Verif Require Import LegacyProofs IPv4Proofs HostProofs WfProofs RoundTrip UrlProps ExampleEnv SuffixProofs RefLaws FileRefProofs PropParser PropReference.
From Verif Require Import SpecUrl SpecParser SpecReference SpecFileReference.
Import ListNotations.
Open Scope N_scope.

(** C134: one slash *)
Theorem C134_file_absolute_path :
  forall E b c t base enc l, limit_ok E -> idna_ok E -> enc_ok E (normalize_encoding E enc) -> parsed E b -> url_v4_ok b -> base_parsed E base -> usable E base enc ->
    path b = PList l -> scheme b = $"file" -> c = 47 \/ c = 92 -> ~ starts (fun d => d = 47 \/ d = 92) (std_seen t) ->
    snd (parse_url E (c :: t) (BRec b) enc) = snd (parse_url E (site b ++ $"/" ++ unless_drive (std_seen t) (drive l) ++ t) base enc).
Proof. exact file_absolute_path. Qed.
Print Assumptions C134_file_absolute_path.
(** C134: no slash *)
Theorem C134_file_relative_path :
  forall E b r base enc l, limit_ok E -> idna_ok E -> enc_ok E (normalize_encoding E enc) -> parsed E b -> url_v4_ok b -> base_parsed E base -> usable E base enc ->
    path b = PList l -> scheme b = $"file" -> std_lstrip r = r -> r <> [] -> ~ has_scheme (std_trim r) ->
    ~ starts (fun c => c = 47 \/ c = 92 \/ c = 63 \/ c = 35) r ->
    snd (parse_url E r (BRec b) enc) = snd (parse_url E (site b ++ $"/" ++ unless_drive (std_trim r) (file_directory l) ++ r) base enc).
Proof. exact file_relative_path. Qed.
Print Assumptions C134_file_relative_path.
Definition rec_drive : urlrec := mkurl $"file" [] [] (Some (HStr $"h")) None (PList [$"C:"]) None None.
Definition rec_plain : urlrec := mkurl $"file" [] [] (Some (HStr $"h")) None (PList [$"a"; $"b"]) None None.
Lemma rec_drive_parsed : parsed ascii_env rec_drive.
Proof. apply (parsed_none ascii_env $"file://h/C|" UTF8); [repeat constructor; discriminate|left; reflexivity|vm_compute; reflexivity]. Qed.
(** the drive of the base is kept, unless the reference has its own; the same words
    against a base without a drive; the directory of a path that is only a drive *)
Example C134_case :
  parsed ascii_env rec_drive /\ parsed ascii_env rec_file /\
  site rec_drive = $"file://h" /\ drive [$"C:"] = $"C:/" /\ file_directory [$"C:"] = $"C:/" /\ file_directory [$"a"] = [] /\
  hrefs (p1 $"\x/../y" rec_drive) = Ok $"file://h/C:/y" /\ hrefs (p0 $"file://h/C:/x/../y") = Ok $"file://h/C:/y" /\
  hrefs (p1 $"/D|/y" rec_drive) = Ok $"file://h/D:/y" /\ hrefs (p1 $"/D|y" rec_drive) = Ok $"file://h/C:/D|y" /\ hrefs (p1 $"/./D|" rec_drive) = Ok $"file://h/C:/D|" /\
  hrefs (p1 $"/y" rec_plain) = Ok $"file://h/y" /\
  hrefs (p1 $"y" rec_drive) = Ok $"file://h/C:/y" /\ hrefs (p1 $"../../y" rec_drive) = Ok $"file://h/C:/y" /\ hrefs (p1 $"D|/y" rec_drive) = Ok $"file://h/D:/y" /\
  hrefs (p1 $"y" rec_plain) = Ok $"file://h/a/y" /\ hrefs (p1 $"../z" rec_file) = Ok $"file:///C:/z".
Proof. split; [exact rec_drive_parsed|]. split; [exact rec_file_parsed|]. repeat split; vm_compute; reflexivity. Qed.
