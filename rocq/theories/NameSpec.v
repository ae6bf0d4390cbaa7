(** Names as registered with IANA for SIP (RFC 3261 section 20 and extensions): methods, header field names and
    compact forms, with the index constant the library gives to each. Written independently of the lookup code; the
    four names that the lookup code misspells are kept apart. *)
From Verif Require Import Base MethodTree HeaderTree.

(** RFC 3261, 3262, 3311, 6086, 6665, 3515, 3428, 3903: the method names (case-sensitive). *)
Definition methodNames : list (bytes * N) := [
  (s2b "INVITE", SIP_METHOD_INVITE);
  (s2b "PRACK", SIP_METHOD_PRACK);
  (s2b "UPDATE", SIP_METHOD_UPDATE);
  (s2b "INFO", SIP_METHOD_INFO);
  (s2b "ACK", SIP_METHOD_ACK);
  (s2b "BYE", SIP_METHOD_BYE);
  (s2b "REGISTER", SIP_METHOD_REGISTER);
  (s2b "SUBSCRIBE", SIP_METHOD_SUBSCRIBE);
  (s2b "NOTIFY", SIP_METHOD_NOTIFY);
  (s2b "REFER", SIP_METHOD_REFER);
  (s2b "OPTIONS", SIP_METHOD_OPTIONS);
  (s2b "MESSAGE", SIP_METHOD_MESSAGE);
  (s2b "PUBLISH", SIP_METHOD_PUBLISH)].

(** Full header field names (case-insensitive) that the library knows by an index. *)
Definition headerNames : list (bytes * N) := [
  (s2b "Accept-Contact", SIP_HDR_ACCEPT_CONTACT);
  (s2b "Accept-Resource-Priority", SIP_HDR_ACCEPT_RESOURCE_PRIORITY);
  (s2b "Alert-Info", SIP_HDR_ALERT_INFO);
  (s2b "Allow", SIP_HDR_ALLOW);
  (s2b "Allow-Events", SIP_HDR_ALLOW_EVENTS);
  (s2b "Answer-Mode", SIP_HDR_ANSWER_MODE);
  (s2b "Authentication-Info", SIP_HDR_AUTHENTICATION_INFO);
  (s2b "Authorization", SIP_HDR_AUTHORIZATION);
  (s2b "Call-ID", SIP_HDR_CALL_ID);
  (s2b "Call-Info", SIP_HDR_CALL_INFO);
  (s2b "Contact", SIP_HDR_CONTACT);
  (s2b "Content-Description", SIP_HDR_CONTENT_DESCRIPTION);
  (s2b "Content-Disposition", SIP_HDR_CONTENT_DISPOSITION);
  (s2b "Content-Encoding", SIP_HDR_CONTENT_ENCODING);
  (s2b "Content-ID", SIP_HDR_CONTENT_ID);
  (s2b "Content-Language", SIP_HDR_CONTENT_LANGUAGE);
  (s2b "Content-Length", SIP_HDR_CONTENT_LENGTH);
  (s2b "Content-Transfer-Encoding", SIP_HDR_CONTENT_TRANSFER_ENCODING);
  (s2b "Content-Type", SIP_HDR_CONTENT_TYPE);
  (s2b "CSeq", SIP_HDR_CSEQ);
  (s2b "Date", SIP_HDR_DATE);
  (s2b "Diversion", SIP_HDR_DIVERSION);
  (s2b "Error-Info", SIP_HDR_ERROR_INFO);
  (s2b "Event", SIP_HDR_EVENT);
  (s2b "Expires", SIP_HDR_EXPIRES);
  (s2b "Feature-Caps", SIP_HDR_FEATURE_CAPS);
  (s2b "Flow-Timer", SIP_HDR_FLOW_TIMER);
  (s2b "From", SIP_HDR_FROM);
  (s2b "Geolocation", SIP_HDR_GEOLOCATION);
  (s2b "Geolocation-Error", SIP_HDR_GEOLOCATION_ERROR);
  (s2b "Geolocation-Routing", SIP_HDR_GEOLOCATION_ROUTING);
  (s2b "History-Info", SIP_HDR_HISTORY_INFO);
  (s2b "Identity", SIP_HDR_IDENTITY);
  (s2b "Identity-Info", SIP_HDR_IDENTITY_INFO);
  (s2b "In-Reply-To", SIP_HDR_IN_REPLY_TO);
  (s2b "Info-Package", SIP_HDR_INFO_PACKAGE);
  (s2b "Join", SIP_HDR_JOIN);
  (s2b "Max-Breadth", SIP_HDR_MAX_BREADTH);
  (s2b "Max-Forwards", SIP_HDR_MAX_FORWARDS);
  (s2b "MIME-Version", SIP_HDR_MIME_VERSION);
  (s2b "Min-Expires", SIP_HDR_MIN_EXPIRES);
  (s2b "Min-SE", SIP_HDR_MIN_SE);
  (s2b "Organization", SIP_HDR_ORGANIZATION);
  (s2b "P-Access-Network-Info", SIP_HDR_P_ACCESS_NETWORK_INFO);
  (s2b "P-Answer-State", SIP_HDR_P_ANSWER_STATE);
  (s2b "P-Asserted-Identity", SIP_HDR_P_ASSERTED_IDENTITY);
  (s2b "P-Asserted-Service", SIP_HDR_P_ASSERTED_SERVICE);
  (s2b "P-Associated-URI", SIP_HDR_P_ASSOCIATED_URI);
  (s2b "P-Called-Party-ID", SIP_HDR_P_CALLED_PARTY_ID);
  (s2b "P-Charging-Vector", SIP_HDR_P_CHARGING_VECTOR);
  (s2b "P-DCS-Billing-Info", SIP_HDR_P_DCS_BILLING_INFO);
  (s2b "P-DCS-LAES", SIP_HDR_P_DCS_LAES);
  (s2b "P-DCS-OSPS", SIP_HDR_P_DCS_OSPS);
  (s2b "P-DCS-Redirect", SIP_HDR_DCS_REDIRECT);
  (s2b "P-DCS-Trace-Party-ID", SIP_HDR_P_DCS_TRACE_PARTY_ID);
  (s2b "P-Early-Media", SIP_HDR_P_EARLY_MEDIA);
  (s2b "P-Media-Authorization", SIP_HDR_P_MEDIA_AUTHORIZATION);
  (s2b "P-Preferred-Identity", SIP_HDR_P_PREFERRED_IDENTITY);
  (s2b "P-Preferred-Service", SIP_HDR_P_PREFERRED_SERVICE);
  (s2b "P-Private-Network-Indication", SIP_HDR_P_PRIVATE_NETWORK_INDICATION);
  (s2b "P-Profile-Key", SIP_HDR_P_PROFILE_KEY);
  (s2b "P-Refused-URI-List", SIP_HDR_P_REFUSED_URI_LIST);
  (s2b "P-Served-User", SIP_HDR_P_SERVED_USER);
  (s2b "P-User-Database", SIP_HDR_P_USER_DATABASE);
  (s2b "P-Visited-Network-ID", SIP_HDR_P_VISITED_NETWORK_ID);
  (s2b "Path", SIP_HDR_PATH);
  (s2b "Permission-Missing", SIP_HDR_PERMISSION_MISSING);
  (s2b "Policy-Contact", SIP_HDR_POLICY_CONTACT);
  (s2b "Policy-ID", SIP_HDR_POLICY_ID);
  (s2b "Priority", SIP_HDR_PRIORITY);
  (s2b "Priv-Answer-Mode", SIP_HDR_PRIV_ANSWER_MODE);
  (s2b "Privacy", SIP_HDR_PRIVACY);
  (s2b "Proxy-Authenticate", SIP_HDR_PROXY_AUTHENTICATE);
  (s2b "Proxy-Authorization", SIP_HDR_PROXY_AUTHORIZATION);
  (s2b "Proxy-Require", SIP_HDR_PROXY_REQUIRE);
  (s2b "RAck", SIP_HDR_RACK);
  (s2b "Reason", SIP_HDR_REASON);
  (s2b "Record-Route", SIP_HDR_RECORD_ROUTE);
  (s2b "Recv-Info", SIP_HDR_RECV_INFO);
  (s2b "Refer-Events-At", SIP_HDR_Refer_Events_At);
  (s2b "Refer-Sub", SIP_HDR_REFER_SUB);
  (s2b "Refer-To", SIP_HDR_REFER_TO);
  (s2b "Referred-By", SIP_HDR_REFERRED_BY);
  (s2b "Reject-Contact", SIP_HDR_REJECT_CONTACT);
  (s2b "Replaces", SIP_HDR_REPLACES);
  (s2b "Reply-To", SIP_HDR_REPLY_TO);
  (s2b "Request-Disposition", SIP_HDR_REQUEST_DISPOSITION);
  (s2b "Require", SIP_HDR_REQUIRE);
  (s2b "Resource-Priority", SIP_HDR_RESOURCE_PRIORITY);
  (s2b "Retry-After", SIP_HDR_RETRY_AFTER);
  (s2b "Route", SIP_HDR_ROUTE);
  (s2b "RSeq", SIP_HDR_RSEQ);
  (s2b "Security-Client", SIP_HDR_SECURITY_CLIENT);
  (s2b "Security-Server", SIP_HDR_SECURITY_SERVER);
  (s2b "Security-Verify", SIP_HDR_SECURITY_VERIFY);
  (s2b "Server", SIP_HDR_SERVER);
  (s2b "Service-Route", SIP_HDR_SERVICE_ROUTE);
  (s2b "Session-Expires", SIP_HDR_SESSION_EXPIRES);
  (s2b "Session-ID", SIP_HDR_SESSION_ID);
  (s2b "SIP-ETag", SIP_HDR_SIP_ETAG);
  (s2b "SIP-If-Match", SIP_SIP_IF_MATCH);
  (s2b "Subject", SIP_HDR_SUBJECT);
  (s2b "Subscription-State", SIP_HDR_SUBSCRIPTION_STATE);
  (s2b "Supported", SIP_HDR_SUPPORTED);
  (s2b "Suppress-If-Match", SIP_HDR_SUPPRESS_IF_MATCH);
  (s2b "Target-Dialog", SIP_HDR_TARGET_DIALOG);
  (s2b "Timestamp", SIP_HDR_TIMESTAMP);
  (s2b "To", SIP_HDR_TO);
  (s2b "Trigger-Consent", SIP_HDR_TRIGGER_CONSENT);
  (s2b "Unsupported", SIP_HDR_UNSUPPORTED);
  (s2b "User-Agent", SIP_HDR_USER_AGENT);
  (s2b "User-To-User", SIP_HDR_USER_TO_USER);
  (s2b "Via", SIP_HDR_VIA);
  (s2b "Warning", SIP_HDR_WARNING);
  (s2b "WWW-Authenticate", SIP_HDR_WWW_AUTHENTICATE)].

(** Compact forms (RFC 3261 7.3.3 and extensions). *)
Definition compactNames : list (bytes * N) := [
  (s2b "a", SIP_HDR_ACCEPT_CONTACT);
  (s2b "b", SIP_HDR_REFERRED_BY);
  (s2b "c", SIP_HDR_CONTENT_TYPE);
  (s2b "e", SIP_HDR_CONTENT_ENCODING);
  (s2b "f", SIP_HDR_FROM);
  (s2b "i", SIP_HDR_CALL_ID);
  (s2b "j", SIP_HDR_REJECT_CONTACT);
  (s2b "k", SIP_HDR_SUPPORTED);
  (s2b "l", SIP_HDR_CONTENT_LENGTH);
  (s2b "m", SIP_HDR_CONTACT);
  (s2b "o", SIP_HDR_EVENT);
  (s2b "r", SIP_HDR_REFER_TO);
  (s2b "s", SIP_HDR_SUBJECT);
  (s2b "t", SIP_HDR_TO);
  (s2b "u", SIP_HDR_ALLOW_EVENTS);
  (s2b "v", SIP_HDR_VIA);
  (s2b "x", SIP_HDR_SESSION_EXPIRES)].

(** Registered names for which the library has an index constant but which its lookup does not recognise... *)
Definition missedNames : list (bytes * N) := [
  (s2b "Accept", SIP_HDR_ACCEPT);
  (s2b "Accept-Encoding", SIP_HDR_ACCEPT_ENCODING);
  (s2b "Accept-Language", SIP_HDR_ACCEPT_ALNGUAGE);
  (s2b "P-Charging-Function-Addresses", SIP_HDR_P_CHARGING_FUNCTION_ADDRESSES);
  (s2b "d", SIP_HDR_REQUEST_DISPOSITION);
  (s2b "y", SIP_HDR_IDENTITY);
  (s2b "n", SIP_HDR_IDENTITY_INFO)].
(** ... and the misspellings it recognises instead. *)
Definition misspeltNames : list (bytes * N) := [
  (s2b "Accpet", SIP_HDR_ACCEPT);
  (s2b "Accpet-Encoding", SIP_HDR_ACCEPT_ENCODING);
  (s2b "Accpet-Language", SIP_HDR_ACCEPT_ALNGUAGE);
  (s2b "P-Charging-Function-Address", SIP_HDR_P_CHARGING_FUNCTION_ADDRESSES)].

(** End of a name: the input ends, or the next byte cannot belong to a token. *)
From Verif Require Import Charset.
Definition nameEnds (r : bytes) : Prop := match r with [] => True | x :: _ => IsSipToken x = false end.

From Verif Require Import StrSpec.
(** ** What the header lookup takes for a name: the name in any letter case; and after these beginnings the dash may be a CR. *)
Definition crDashAfter : list bytes := [s2b "in"; s2b "p"; s2b "priv"; s2b "refer"].
Definition spells (p name : bytes) : Prop :=
  sameNoCase p name \/ exists a b, p = a ++ 13 :: b /\ In (map asciiLower a) crDashAfter /\ sameNoCase (a ++ 45 :: b) name.

(** Inputs on which the lookup indexes past the end of the input (up to letter case): proper prefixes of names, at the places
    where the generated code switches on the next byte without a length check. *)
Definition headerPanics : list bytes := [
  s2b "acc"; s2b "accept-"; s2b "accpet-"; s2b "al"; s2b "auth"; s2b "call-i"; s2b "cont"; s2b "content-"; s2b
  "content-d"; s2b "content-l"; s2b "content-t"; s2b "d"; s2b "geolocation-"; s2b "in"; s2b "max-"; s2b "mi"; s2b
  "min-"; s2b "p"; s2b "p-"; s2b "p-a"; s2b "p-ass"; s2b "p-asserted-"; s2b "p-c"; s2b "p-charging-"; s2b "p-dcs-"; s2b
  "p-pr"; s2b "p-preferred-"; s2b "policy-"; s2b "pr"; s2b "pri"; s2b "priv"; s2b "proxy-"; s2b "proxy-auth"; s2b "re";
  s2b "rec"; s2b "refer"; s2b "refer-"; s2b "repl"; s2b "requ"; s2b "se"; s2b "security-"; s2b "serv"; s2b "session-";
  s2b "sip-"; s2b "su"; s2b "sub"; s2b "supp"; s2b "user-"; s2b "w"].
