(** The records that URL objects can have after any history of calls: those of SpecCanon.v, but a port 0 may
    meet an empty host or the scheme "file", a "file" URL may have the host "localhost", and its path may begin with
    a drive letter that is written with "|". *)
From Coq Require Import Ascii String.
From Coq Require Import NArith Bool Arith List.
From Verif Require Import PyStr HostModel UrlRecord SpecText SpecHost SpecPyInt SpecUrl SpecCanon.
Import ListNotations.
Open Scope N_scope.

Section Held.
Context (to_ascii : list N -> option (list N)) (as_number : list N -> Prop).

Definition held_path (u : urlrec) : Prop :=
  match path u with
  | POpaque _ => canonical_path u
  | PList l =>
      Forall (fun s => encoded path_set s /\ clean_segment (scheme u) s) l /\
      (l = [] -> ~ std_special (scheme u) /\ uhost u <> None)
  end.

Record held (u : urlrec) : Prop := {
  held_scheme : std_scheme (scheme u) = true /\ std_lower (scheme u) = scheme u;
  held_creds : encoded userinfo_set (username u) /\ encoded userinfo_set (password u);
  held_host : match uhost u with
              | None => ~ std_special (scheme u)
              | Some (HStr []) => std_special (scheme u) -> scheme u = $"file"
              | Some h => canonical_host to_ascii as_number (scheme u) h \/
                          (scheme u = $"file" /\ canonical_host to_ascii as_number $"http" h)
              end;
  held_authority : username u <> [] \/ password u <> [] \/ (exists p, port u = Some p /\ p <> 0) ->
                   uhost u <> None /\ uhost u <> Some (HStr []) /\ scheme u <> $"file";
  held_port : forall p, port u = Some p -> uhost u <> None /\ p <= 65535 /\ ~ std_default_port (scheme u) p;
  held_path_ok : held_path u;
  held_query : forall q, query u = Some q -> (std_special (scheme u) -> encoded special_query_set q) /\ encoded query_set q;
  held_fragment : forall f, fragment u = Some f -> encoded fragment_set f }.
End Held.
