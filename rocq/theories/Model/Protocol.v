(** Model of the FastCGI protocol layer (src/protocol.cpp,
    include/fastcgi++/protocol.hpp). *)
From Coq Require Import String List NArith ZArith Bool.
From Verif Require Import Model.Base Model.Endian.
Import ListNotations.
Local Open Scope N_scope.

(** protocol.hpp 141-154. *)
Definition T_BEGIN_REQUEST : N := 1.
Definition T_ABORT_REQUEST : N := 2.
Definition T_END_REQUEST : N := 3.
Definition T_PARAMS : N := 4.
Definition T_IN : N := 5.
Definition T_OUT : N := 6.
Definition T_ERR : N := 7.
Definition T_DATA : N := 8.
Definition T_GET_VALUES : N := 9.
Definition T_GET_VALUES_RESULT : N := 10.
Definition T_UNKNOWN_TYPE : N := 11.

(** protocol.hpp 157, 160. *)
Definition fcgi_version : N := 1.
Definition chunkSize : N := 8.

(** protocol.hpp 163-168. *)
Definition ROLE_RESPONDER : N := 1.
Definition ROLE_AUTHORIZER : N := 2.
Definition ROLE_FILTER : N := 3.

(** protocol.hpp 171-177. *)
Definition REQUEST_COMPLETE : N := 0.
Definition CANT_MPX_CONN : N := 1.
Definition OVERLOADED : N := 2.
Definition UNKNOWN_ROLE : N := 3.

(** sizeof(Header), protocol.hpp 188-207: eight one-byte members. *)
Definition headerSize : N := 8.

(** One length field of [processParamHeader] (protocol.cpp 42-55 and, with the
    same text, 57-70).  [mem] is the object [data] points into; [data] and
    [dataEnd] are offsets.  Result: [UB] on a read outside [mem]; [Val None]
    when the C++ returns false; otherwise the length and the advanced
    pointer.  [size_t] and pointer arithmetic are unbounded here; offsets stay
    below 2^33, so no wrap occurs on a 64 bit machine. *)
Definition paramLength (mem : list N) (data dataEnd : N)
  : outcome (option (N * N)) :=
  if dataEnd <=? data then Val None else
  match rd mem (N.to_nat data) with
  | None => UB
  | Some b =>
      if negb (N.land b 0x80 =? 0) then
        let data' := data + 4 in
        if dataEnd <? data' then Val None else
        match from32 (skipn (N.to_nat data) mem) with
        | None => UB
        | Some v => Val (Some (N.land v 0x7fffffff, data'))
        end
      else Val (Some (b, data + 1))
  end.

(** protocol.cpp 32-80.  [Val (Some (name, value, end))] is a true return. *)
Definition processParamHeader (mem : list N) (data dataEnd : N)
  : outcome (option (N * N * N)) :=
  obind (paramLength mem data dataEnd) (fun r1 =>
  match r1 with
  | None => Val None
  | Some (nameSize, data1) =>
      obind (paramLength mem data1 dataEnd) (fun r2 =>
      match r2 with
      | None => Val None
      | Some (valueSize, data2) =>
          let name := data2 in
          let value := name + nameSize in
          let end_ := value + valueSize in
          if dataEnd <? end_ then Val None
          else Val (Some (name, value, end_))
      end)
  end).

(** protocol.cpp 93-102. *)
Definition getRecordSize (contentLength : N) : N :=
  let contentLength := if 0xffff <? contentLength then 0xffff else contentLength in
  (contentLength + headerSize + chunkSize - 1) / chunkSize * chunkSize.

(** Bytes of memory that may never have been written: [None] is an
    indeterminate byte. *)
Definition obyte := option N.

(** Auxiliary, no counterpart in the code: bytes that all have a value. *)
Definition known (l : list N) : list obyte := map Some l.

(** The eight bytes of a [Header] (protocol.hpp 188-207) whose [reserved]
    member was left alone, as every writer of headers in the library does. *)
Definition header_bytes (type id contentLength paddingLength : N) : list obyte :=
  known ([fcgi_version; trunc 8 type] ++ to16 (trunc 16 id)
         ++ to16 (trunc 16 contentLength) ++ [trunc 8 paddingLength]) ++ [None].

(** protocol.hpp 340-394, the object representation of
    [ManagementReply<NAMELENGTH, VALUELENGTH>] after construction.  The
    padding array and the header's reserved byte are never written. *)
Definition mgmtPadding (nameLen valueLen : N) : N :=
  (chunkSize - 1) - (headerSize + 2 + nameLen + valueLen - 1) mod chunkSize.

(** protocol.hpp 340-394: ManagementReply as it lies in memory. *)
Definition managementReply (name value : list N) : list obyte :=
  let nl := N.of_nat (length name) in
  let vl := N.of_nat (length value) in
  header_bytes T_GET_VALUES_RESULT 0 (nl + vl) (mgmtPadding nl vl)
  ++ known [trunc 8 nl; trunc 8 vl] ++ known name ++ known value
  ++ repeat None (N.to_nat (mgmtPadding nl vl)).

(** protocol.cpp 82-89. *)
Definition maxConnsReply : list obyte := managementReply (lit "FCGI_MAX_CONNS") (lit "10").
Definition maxReqsReply : list obyte := managementReply (lit "FCGI_MAX_REQS") (lit "50").
Definition mpxsConnsReply : list obyte := managementReply (lit "FCGI_MPXS_CONNS") (lit "1").
