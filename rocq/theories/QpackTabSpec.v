(* RFC 9204 Appendix A, typed from the RFC (not generated from the code). *)
From Coq Require Import String Ascii.
From Verif Require Import Base.

Fixpoint bs (s : string) : list Z :=
  match s with
  | EmptyString => []
  | String c t => Z.of_N (N_of_ascii c) :: bs t
  end.
Local Open Scope string_scope.
Definition rfc_static_strings : list (string * string) := [
 (":authority", ""); (":path", "/"); ("age", "0"); ("content-disposition", ""); ("content-length", "0");
 ("cookie", ""); ("date", ""); ("etag", ""); ("if-modified-since", ""); ("if-none-match", "");
 ("last-modified", ""); ("link", ""); ("location", ""); ("referer", ""); ("set-cookie", "");
 (":method", "CONNECT"); (":method", "DELETE"); (":method", "GET"); (":method", "HEAD");
 (":method", "OPTIONS"); (":method", "POST"); (":method", "PUT");
 (":scheme", "http"); (":scheme", "https");
 (":status", "103"); (":status", "200"); (":status", "304"); (":status", "404"); (":status", "503");
 ("accept", "*/*"); ("accept", "application/dns-message");
 ("accept-encoding", "gzip, deflate, br"); ("accept-ranges", "bytes");
 ("access-control-allow-headers", "cache-control"); ("access-control-allow-headers", "content-type");
 ("access-control-allow-origin", "*");
 ("cache-control", "max-age=0"); ("cache-control", "max-age=2592000"); ("cache-control", "max-age=604800");
 ("cache-control", "no-cache"); ("cache-control", "no-store"); ("cache-control", "public, max-age=31536000");
 ("content-encoding", "br"); ("content-encoding", "gzip");
 ("content-type", "application/dns-message"); ("content-type", "application/javascript");
 ("content-type", "application/json"); ("content-type", "application/x-www-form-urlencoded");
 ("content-type", "image/gif"); ("content-type", "image/jpeg"); ("content-type", "image/png");
 ("content-type", "text/css"); ("content-type", "text/html; charset=utf-8"); ("content-type", "text/plain");
 ("content-type", "text/plain;charset=utf-8");
 ("range", "bytes=0-"); ("strict-transport-security", "max-age=31536000");
 ("strict-transport-security", "max-age=31536000; includesubdomains");
 ("strict-transport-security", "max-age=31536000; includesubdomains; preload");
 ("vary", "accept-encoding"); ("vary", "origin"); ("x-content-type-options", "nosniff");
 ("x-xss-protection", "1; mode=block");
 (":status", "100"); (":status", "204"); (":status", "206"); (":status", "302"); (":status", "400");
 (":status", "403"); (":status", "421"); (":status", "425"); (":status", "500");
 ("accept-language", ""); ("access-control-allow-credentials", "FALSE"); ("access-control-allow-credentials", "TRUE");
 ("access-control-allow-headers", "*"); ("access-control-allow-methods", "get");
 ("access-control-allow-methods", "get, post, options"); ("access-control-allow-methods", "options");
 ("access-control-expose-headers", "content-length"); ("access-control-request-headers", "content-type");
 ("access-control-request-method", "get"); ("access-control-request-method", "post");
 ("alt-svc", "clear"); ("authorization", "");
 ("content-security-policy", "script-src 'none'; object-src 'none'; base-uri 'none'");
 ("early-data", "1"); ("expect-ct", ""); ("forwarded", ""); ("if-range", ""); ("origin", "");
 ("purpose", "prefetch"); ("server", ""); ("timing-allow-origin", "*"); ("upgrade-insecure-requests", "1");
 ("user-agent", ""); ("x-forwarded-for", ""); ("x-frame-options", "deny"); ("x-frame-options", "sameorigin")].
Definition rfc_static_table : list (list Z * list Z) :=
  map (fun p => (bs (fst p), bs (snd p))) rfc_static_strings.

(* names with a token but not in the static table: the fields RFC 9114 section 4.2 treats
   specially, :protocol (RFC 9220) and priority (RFC 9218) *)
Definition extra_names : list (list Z) :=
  map bs ["host"; "connection"; "keep-alive"; "proxy-connection"; "transfer-encoding"; "upgrade";
          "te"; ":protocol"; "priority"].
Definition known_names : list (list Z) := map fst rfc_static_table ++ extra_names.
