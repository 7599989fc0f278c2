(** The errors of the POSIX domain (include/solace/posixErrorDomain.hpp, src/systemErrorDomain.cpp):
    the three enumerations, the functions that make errors of them, and the text of the domain. *)
From Coq Require Import String.
From Verif Require Import Base AtomModel StringModel ErrorModel ExceptionModel.
Notation length := List.length.

(** include/solace/posixErrorDomain.hpp:45-48 *)
Definition basic_errors : list (string * Z) := [
  ("Overflow", 0); ("InvalidInput", 1)]%string%Z.
(** include/solace/posixErrorDomain.hpp:50-85 *)
Definition generic_errors : list (string * Z) := [
  ("PERM", 1); ("NOENT", 2); ("SRCH", 3); ("INTR", 4); ("IO", 5); ("NXIO", 6); ("TooBig", 7); ("NOEXEC", 8);
  ("BADF", 9); ("CHILD", 10); ("AGAIN", 11); ("NOMEM", 12); ("ACCES", 13); ("FAULT", 14); ("NOTBLK", 15);
  ("BUSY", 16); ("EXIST", 17); ("XDEV", 18); ("NODEV", 19); ("NOTDIR", 20); ("ISDIR", 21); ("INVAL", 22);
  ("NFILE", 23); ("MFILE", 24); ("NOTTY", 25); ("TXTBSY", 26); ("FBIG", 27); ("NOSPC", 28); ("SPIPE", 29);
  ("ROFS", 30); ("MLINK", 31); ("PIPE", 32); ("DOM", 33); ("RANGE", 34)]%string%Z.
(** include/solace/posixErrorDomain.hpp:88-192 *)
Definition system_errors : list (string * Z) := [
  ("DEADLOCK", 35); ("NameTooLong", 36); ("NoLock", 37); ("NoSys", 38); ("NOTEMPTY", 39); ("LOOP", 40);
  ("WOULDBLOCK", 11); ("NOMSG", 42); ("IDRM", 43); ("CHRNG", 44); ("L2NSYNC", 45); ("L3HLT", 46);
  ("L3RST", 47); ("LNRNG", 48); ("UNATCH", 49); ("NOCSI", 50); ("L2HLT", 51); ("BADE", 52); ("BADR", 53);
  ("XFULL", 54); ("NOANO", 55); ("BADRQC", 56); ("BADSLT", 57); ("BFONT", 59); ("NOSTR", 60); ("NODATA", 61);
  ("TIME", 62); ("NOSR", 63); ("NONET", 64); ("NOPKG", 65); ("REMOTE", 66); ("NOLINK", 67); ("ADV", 68);
  ("SRMNT", 69); ("COMM", 70); ("PROTO", 71); ("MULTIHOP", 72); ("DOTDOT", 73); ("BADMSG", 74);
  ("Overflow", 75); ("NOTUNIQ", 76); ("BADFD", 77); ("REMCHG", 78); ("LIBACC", 79); ("LIBBAD", 80);
  ("LIBSCN", 81); ("LIBMAX", 82); ("LIBEXEC", 83); ("ILSEQ", 84); ("RESTART", 85); ("STRPIPE", 86);
  ("USERS", 87); ("NOTSOCK", 88); ("DESTADDRREQ", 89); ("MSGSIZE", 90); ("PROTOTYPE", 91);
  ("NOPROTOOPT", 92); ("PROTONOSUPPORT", 93); ("SOCKTNOSUPPORT", 94); ("OPNOTSUPP", 95); ("PFNOSUPPORT", 96);
  ("AFNOSUPPORT", 97); ("ADDRINUSE", 98); ("ADDRNOTAVAIL", 99); ("NETDOWN", 100); ("NETUNREACH", 101);
  ("NETRESET", 102); ("CONNABORTED", 103); ("CONNRESET", 104); ("NOBUFS", 105); ("ISCONN", 106);
  ("NOTCONN", 107); ("SHUTDOWN", 108); ("TOOMANYREFS", 109); ("TIMEDOUT", 110); ("CONNREFUSED", 111);
  ("HOSTDOWN", 112); ("HOSTUNREACH", 113); ("ALREADY", 114); ("INPROGRESS", 115); ("STALE", 116);
  ("UCLEAN", 117); ("NOTNAM", 118); ("NAVAIL", 119); ("ISNAM", 120); ("REMOTEIO", 121); ("DQUOT", 122);
  ("NOMEDIUM", 123); ("MEDIUMTYPE", 124); ("CANCELED", 125); ("NOKEY", 126); ("KEYEXPIRED", 127);
  ("KEYREVOKED", 128); ("KEYREJECTED", 129); ("OWNERDEAD", 130); ("NOTRECOVERABLE", 131); ("RFKILL", 132);
  ("HWPOISON", 133)]%string%Z.

(** src/systemErrorDomain.cpp:32 kSystemCatergory: the atom is evaluated before it is used *)
Definition kSystemCatergory : N := match atom_literal posix_text with Ret a => a | _ => 0 end.
(** include/solace/posixErrorDomain.hpp:196-204, error.hpp:45-54: without a tag the view is empty *)
Definition makeSystemError (errCode : Z) (tag : option (list N)) : err :=
  mkErr errCode kSystemCatergory (match tag with Some t => t | None => [] end).
(** include/solace/posixErrorDomain.hpp:207-220: makeError of each of the enumerations casts the
    value to int *)
Definition makeError (value : Z) (tag : list N) : err := mkErr value kSystemCatergory tag.
(** src/systemErrorDomain.cpp:58-67: errno when it is called *)
Definition makeErrno (errno : Z) (tag : option (list N)) : err := makeSystemError errno tag.

(** src/systemErrorDomain.cpp:39-41 name() *)
Definition system_name : list N := lit "PosixSystemError".
(** src/systemErrorDomain.cpp:43-49 message(): [strerror] gives the C string of the C library;
    the view of it has a 16-bit length (src/stringView.cpp:29-35).  The text of the failure is a
    literal, which needs no memory (src/string.cpp:46-49). *)
Definition system_message (alloc : heap) (strerror : Z -> list N) (code : Z) : outcome (list N) :=
  let text := strerror code in
  let! r := str_make alloc (ntake (u16 (size text)) text) in
  Ret (match r with
       | Ok s => str_view s
       | Err _ => lit "PosixSystemError: Failed to get error string"
       end).
