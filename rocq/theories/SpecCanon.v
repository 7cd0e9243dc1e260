(** Normal forms of URLs: what a URL record looks like when its serialization is parsed. Written from the
    URL Standard; [to_ascii] is its domain-to-ASCII operation, [as_number] says which labels the implementation takes
    for numbers beyond the standard's. *)
From Coq Require Import Ascii String.
From Coq Require Import NArith Bool Arith List.
From Verif Require Import PyStr HostModel UrlRecord SpecText SpecHost SpecPyInt SpecUrl.
Import ListNotations.
Open Scope N_scope.

(** no code point of the percent-encode set is left *)
Definition encoded (set : N -> bool) (s : list N) : Prop := forall c, In c s -> set c = false.

Section Canonical.
Context (to_ascii : list N -> option (list N)) (as_number : list N -> Prop).

(** a host that is not the empty string *)
Definition canonical_host (sch : list N) (h : host) : Prop :=
  match h with
  | HStr d =>
      d <> [] /\ (sch = $"file" -> d <> $"localhost") /\
      (std_special sch -> to_ascii d = Some d /\ (forall c, In c d -> std_forbidden_domain c = false) /\
                          std_ends_in_number d = false /\ ~ as_number (last (address_parts d) [])) /\
      (~ std_special sch -> encoded c0_control_set d /\ forall c, In c d -> std_forbidden_host c = false)
  | HIPv4 n => std_special sch /\ n < 4294967296
  | HIPv6 a => length a = 8%nat /\ Forall (fun piece => piece < 65536) a
  end.

Definition canonical_path (u : urlrec) : Prop :=
  match path u with
  | POpaque s =>
      uhost u = None /\ encoded c0_control_set s /\ ~ In 63 s /\ ~ In 35 s /\ (forall t, s <> 47 :: t) /\
      (query u = None -> fragment u = None -> forall t, s <> t ++ [32])
  | PList l =>
      Forall (fun s => encoded path_set s /\ clean_segment (scheme u) s) l /\
      (l = [] -> ~ std_special (scheme u) /\ uhost u <> None) /\
      (scheme u = $"file" -> forall a l', std_alpha a = true -> l <> [a; 124] :: l')
  end.

Record canonical (u : urlrec) : Prop := {
  can_scheme : std_scheme (scheme u) = true /\ std_lower (scheme u) = scheme u;
  can_creds : encoded userinfo_set (username u) /\ encoded userinfo_set (password u);
  can_host : match uhost u with
             | None => ~ std_special (scheme u)
             | Some (HStr []) => std_special (scheme u) -> scheme u = $"file"
             | Some h => canonical_host (scheme u) h
             end;
  can_authority : username u <> [] \/ password u <> [] \/ port u <> None ->
                  uhost u <> None /\ uhost u <> Some (HStr []) /\ scheme u <> $"file";
  can_port : forall p, port u = Some p -> p <= 65535 /\ ~ std_default_port (scheme u) p;
  can_path : canonical_path u;
  can_query : forall q, query u = Some q -> (std_special (scheme u) -> encoded special_query_set q) /\ encoded query_set q;
  can_fragment : forall f, fragment u = Some f -> encoded fragment_set f }.
End Canonical.
