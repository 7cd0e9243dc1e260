(** C123: levels of log messages. *)
From Coq Require Import Ascii String.
From Coq Require Import NArith ZArith Bool Arith List.
From Verif Require Import PyStr PyInt Codec Env HostModel UrlRecord Parser SearchParams UrlApi Repr Message MsgHost MsgParser MsgApi ExampleEnv PropMessages PropValidity PropSetText MsgLevelProofs SpecLevels.
Import ListNotations.
Open Scope N_scope.

(** C123: what stops a call is logged as ERROR, everything else as INFO: a call that returns has logged
    at INFO only, one that raises URLParseError or a subclass has logged one ERROR, as the last thing.
    For parse_url, URL(), Host.parse and IDNA.domain_to_unicode in all environments. Of the attributes
    of URL, only protocol raises without an ERROR. *)
Theorem C123_levels :
  (forall X s base enc, levels False (fst (m_parse_url X s base enc)) (snd (m_parse_url X s base enc))) /\
  (forall X s base, levels False (fst (m_url_new X s base)) (snd (m_url_new X s base))) /\
  (forall X h ns, levels False (fst (m_host_parse X h ns)) (snd (m_host_parse X h ns))) /\
  (forall X strict d, levels False (fst (m_domain_to_unicode X strict d)) (snd (m_domain_to_unicode X strict d))) /\
  (forall X s o, levels (exists v, s = SetProtocol v) (fst (m_set_attr X s o)) (snd (snd (m_set_attr X s o)))).
Proof. exact (conj gw_parse_url (conj gw_url_new (conj (fun X => gw_host X False) (conj (fun X => gw_unicode X False) gs_attr)))). Qed.
Print Assumptions C123_levels.

Definition ranks {A} (m : list entry * A) : list level := map e_level (fst m).
Example C123_case :
  ranks (m_parse_url ascii_menv $"http:/u@h:x" BNone UTF8) = [INFO; INFO; INFO; ERROR] /\
  ranks (m_url_new ascii_menv $"http:/u@h/^" BNone) = [INFO; INFO; INFO; INFO] /\
  ranks (m_host_parse ascii_menv $"0x100" false) = [INFO; INFO] /\
  ranks (m_host_parse ascii_menv $"0x1.08." false) = [INFO; INFO; ERROR] /\
  ranks (m_set_attr plain_menv (SetHost $"b:99999") (demo $"http://a/")) = [ERROR] /\
  ranks (m_set_attr plain_menv (SetProtocol (9 :: $"a b")) (demo $"http://a/")) = [INFO].
Proof. repeat split; vm_compute; reflexivity. Qed.
