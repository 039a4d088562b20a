{"id": "C01", "title": "Route lookup returns the best matching rule, first one on ties", "statement": "Looking a request up in a list of routes returns nothing exactly when no rule of any route matches it (host list and rule matches considered together); otherwise it returns the policy of a rule that does match, no other matching rule ranks strictly higher, and among equally ranked ones the one listed first (route order, then rule order) is returned.", "quantifier": "every list of routes with any number of hosts, rules and matches, and every request", "why_tests_cant": "Tests fix a handful of routes; that nothing outranks the answer and that the first listed wins ties is a statement about every route list and request.", "anchors": ["linkerd/http/route/src/lib.rs: find, best", "linkerd/http/route/src/http/match.rs: MatchRequest::match_request, RequestMatch::cmp", "linkerd/http/route/src/http.rs: find"]}
{"id": "C02", "title": "Host matching is case-insensitive, exact or by whole labels", "statement": "An exact host match accepts a request exactly when the request's host equals the configured name up to ASCII case, where one trailing dot on the request's host is ignored unless the configured name is itself absolute. A wildcard match `*.d` accepts exactly the hosts that are any prefix, then '.', then d (up to ASCII case and a trailing dot), so never d itself and never a name that merely ends in the characters of d. An exact host match always outranks a wildcard one, and a longer one outranks a shorter one of the same kind.", "quantifier": "every configured host name and every request authority", "why_tests_cant": "The space of names is infinite and the label-by-label right-to-left stripping has to agree with a declarative reading for all of them.", "anchors": ["linkerd/http/route/src/http/match/host.rs: MatchHost::summarize_match, HostMatch::cmp, MatchHost::from_str"]}
{"id": "C03", "title": "Path prefixes match on whole path segments", "statement": "A prefix path match accepts a path exactly when, with trailing slashes removed from both, the path equals the prefix or continues it with '/'; so /foo never matches /foobar. The prefix '/' matches every path.", "quantifier": "every prefix and every request path", "why_tests_cant": "Segment boundary handling is an infinite-domain string property; tests sample it.", "anchors": ["linkerd/http/route/src/http/match/path.rs: MatchPath::match_length"]}
{"id": "C04", "title": "Match precedence: host, then path length, header count, query count, method", "statement": "When two rules match a request, the one whose route has the more specific host is chosen; with equally specific hosts the longer path match wins, then the greater number of header matches, then of query parameter matches, then the presence of a method match. (As the Gateway API asks, an exact path should also beat a prefix of the same length: this part is refuted.)", "quantifier": "every pair of matching rules and every request", "why_tests_cant": "Precedence is an order over an unbounded set of summaries: that it is total, transitive and lexicographic cannot be sampled.", "anchors": ["linkerd/http/route/src/http/match.rs: RequestMatch::cmp", "linkerd/http/route/src/http/match/path.rs: PathMatch::cmp", "linkerd/http/route/src/lib.rs: RouteMatch"]}
{"id": "C05", "title": "gRPC routes match POST requests on service and method", "statement": "A gRPC match never accepts a request whose method is not POST; when it names a service and/or method it accepts only paths /service/method whose parts are those given; headers must all match; a match naming both service and method outranks one naming only one, and more header matches outrank fewer.", "quantifier": "every gRPC match and every request path and method", "why_tests_cant": "Path splitting over arbitrary byte strings and ranking of arbitrary matches.", "anchors": ["linkerd/http/route/src/grpc/match.rs: MatchRoute::match_request, MatchRpc::match_length, RouteMatch ordering"]}
{"id": "C06", "title": "Header modification applies add, then set, then remove", "statement": "After a header-modifying filter has run, a header named in `remove` is absent; otherwise a header named in `set` carries exactly the last configured value; otherwise the header carries its original values followed by the values configured in `add`, in order; headers not named are untouched.", "quantifier": "every filter configuration and every initial header map", "why_tests_cant": "Interaction of three lists with overlapping names over arbitrary header maps.", "anchors": ["linkerd/http/route/src/http/filter/modify_header.rs: ModifyHeader::apply"]}
{"id": "C07", "title": "Redirects never point a request at itself", "statement": "A redirect filter, when it yields a location, yields one different from the request's own URI; the status is the configured one or 301; fields that the filter does not set are taken from the request; and when the filter replaces the host or the port, a port that is the default of the resulting scheme is omitted.", "quantifier": "every redirect configuration, request URI and route match", "why_tests_cant": "Ranges over all configurations and URIs; a self-redirect loop shows up only for particular combinations.", "anchors": ["linkerd/http/route/src/http/filter/redirect.rs: RedirectRequest::apply, port_if_not_default"]}
{"id": "C08", "title": "Backoff delays stay between min and max, grow, and never overflow", "statement": "For every backoff configuration accepted by the constructor, the n-th delay lies in [min, max] whatever n and whatever the random draw; without jitter it equals min(min*2^n, max) as long as n is below 32; the sequence of base delays never decreases; the stream of delays never panics for representable deadlines and ends only after 2^32-1 delays.", "quantifier": "every accepted (min, max, jitter), every iteration index and every random value", "why_tests_cant": "Saturation of 2^n and of duration multiplication only shows at large n; all random draws must be covered.", "anchors": ["linkerd/exp-backoff/src/lib.rs: ExponentialBackoff::try_new, base, jitter, ExponentialBackoffStream::poll_next"]}
{"id": "C09", "title": "Peak-EWMA latency estimates stay within observed values and jump up on peaks", "statement": "A moving average after any sequence of observations is finite, non-negative and never exceeds the largest of the initial and observed values, nor falls below the smallest; adding a peak never leaves the estimate below the new sample; observations with a timestamp not after the last one are ignored.", "quantifier": "every sequence of (timestamp, sample) observations, in any order of timestamps", "why_tests_cant": "An invariant over unbounded histories with real-valued decay.", "anchors": ["linkerd/ewma/src/lib.rs: Ewma::new, add, add_peak, get_at"]}
{"id": "C10", "title": "The transport header codec round-trips and never eats application bytes", "statement": "A connection on which a peer wrote an encoded header followed by any bytes decodes to exactly that header (port, optional name and protocol), leaving exactly those bytes; a connection not starting with the preface yields no header and delivers all of its bytes; whatever the chunking of reads.", "quantifier": "every header with a non-zero port, every payload and every split of the byte stream into reads", "why_tests_cant": "Requires all headers, payloads and read schedules.", "anchors": ["linkerd/transport-header/src/lib.rs: TransportHeader::encode_prefaced, read_prefaced, decode"]}
{"id": "C11", "title": "Peeked bytes are replayed before the rest of the stream, once and in order", "statement": "Reading a prefixed stream with any sequence of buffer sizes yields the prefix bytes followed by the inner stream's bytes, with none lost, duplicated or reordered.", "quantifier": "every prefix, every inner stream and every sequence of read sizes", "why_tests_cant": "All read schedules.", "anchors": ["linkerd/io/src/prefixed.rs: PrefixedIo::poll_read"]}
{"id": "C12", "title": "A retried request carries the same body as the original", "statement": "If the initial body was read to some point and its buffer was not exhausted, a replay yields exactly the same data, in the same order, followed by what the original had not read yet and by the same trailers; a replay attempted after the limit was exceeded fails rather than sending a truncated body. (Refuted in one schedule: when nothing at all had been read before the replay, the first chunk is sent twice.)", "quantifier": "every body (any frames, trailers), every point at which the initial attempt was dropped, every limit and any number of replays", "why_tests_cant": "The set of interleavings of partial reads, drops and replays is unbounded; the failing schedule is missed by the unit tests.", "anchors": ["linkerd/http/retry/src/replay.rs: ReplayBody::poll_frame, clone, drop, is_capped", "linkerd/http/retry/src/replay/buffer.rs: record_bytes, Replay"]}
{"id": "C13", "title": "Replay buffering never holds more than the configured number of bytes", "statement": "At every moment the number of bytes buffered for a replay is at most the configured limit; once the limit is exceeded the buffer is discarded and stays discarded.", "quantifier": "every body and every sequence of reads, drops and clones", "why_tests_cant": "An invariant over unbounded frame histories.", "anchors": ["linkerd/http/retry/src/replay/buffer.rs: BodyState::record_bytes", "linkerd/http/retry/src/replay.rs: ReplayBody::try_new"]}
{"id": "C14", "title": "A request is attempted at most 1+max-retries times and retried only when allowed", "statement": "For every sequence of backend outcomes, a request is sent at most 1+limit times, a further attempt is made only after a response or error the policy declares retryable, and the response given to the client is that of the last attempt.", "quantifier": "every retry policy and every sequence of responses and errors", "why_tests_cant": "Unbounded sequences of outcomes and limits.", "anchors": ["linkerd/http/retry/src/lib.rs: HttpRetry::call, send_req_with_retries", "linkerd/app/outbound/src/http/logical/policy/route/retry.rs: is_retryable, set_extensions"]}
{"id": "C15", "title": "Per-request retry and timeout headers are parsed soundly", "statement": "A duration header of the form digits+unit is read as exactly that duration, anything else (empty, unknown unit, non-digit, overflow) is ignored; an HTTP status condition header selects exactly the listed codes and ranges; when the route honours these headers they, and no others, are removed before forwarding, and otherwise they have no effect.", "quantifier": "every header value", "why_tests_cant": "The parser has to be right for every byte string, including values that overflow 64 bits.", "anchors": ["linkerd/app/outbound/src/http/logical/policy/route/extensions.rs: parse_duration, parse_http_conditions, parse_grpc_conditions, configure_retry, configure_timeouts"]}
{"id": "C16", "title": "Consecutive-failure breaker opens exactly after N failures in a row", "statement": "While closed, an endpoint stays available until exactly N consecutive failures are observed and any success resets the count; once open it admits no request until a backoff has elapsed, and then admits one request per backoff until one succeeds.", "quantifier": "every N >= 1 and every sequence of responses and timer events", "why_tests_cant": "Unbounded event histories.", "anchors": ["linkerd/app/outbound/src/http/breaker/consecutive_failures.rs: ConsecutiveFailures::run, open, closed, probation"]}
{"id": "C17", "title": "The success-rate window counts exactly the recent responses", "statement": "At every moment the totals used to decide on tripping equal the numbers of responses and failures recorded within the current sliding window of ten buckets; older ones never count and newer ones are never lost.", "quantifier": "every window length and every sequence of timed responses", "why_tests_cant": "The ring buffer must agree with a full history for all histories, including arbitrarily long pauses.", "anchors": ["linkerd/app/outbound/src/http/breaker/success_rate.rs: SlidingWindow roll, record, should_trip, reset"]}
{"id": "C18", "title": "The unified breaker trips exactly on its configured conditions", "statement": "While closed, the breaker opens after a response exactly when consecutive failures reached the configured maximum or the window holds at least the minimum number of requests with a success rate below the threshold; otherwise it stays open for traffic; after a successful probe both counters start afresh.", "quantifier": "every configuration and every history of responses", "why_tests_cant": "All histories and thresholds.", "anchors": ["linkerd/app/outbound/src/http/breaker/unified.rs: closed, should_trip, open, probation, is_probe_success"]}
{"id": "C19", "title": "Only the probe request decides whether an open breaker closes", "statement": "After a backoff, the breaker re-opens for traffic only because of the response to the probe request it admitted. (Refuted: any response still in flight from before the breaker opened is taken as the probe's.)", "quantifier": "every schedule of in-flight responses and timers", "why_tests_cant": "A race between old in-flight responses and the probe.", "anchors": ["linkerd/app/outbound/src/http/breaker/consecutive_failures.rs: probation", "linkerd/app/outbound/src/http/breaker/unified.rs: probation", "linkerd/http/classify/src/gate.rs"]}
{"id": "C20", "title": "Retry-After and gRPC pushback hints are parsed soundly and capped", "statement": "A Retry-After of decimal seconds is read as that many seconds capped at the configured maximum, values too large for 64 bits never panic; a negative gRPC pushback never yields a delay; other values are ignored.", "quantifier": "every header value, cap and current time", "why_tests_cant": "All byte strings, including overflowing numbers.", "anchors": ["linkerd/http/classify/src/retry_after.rs: parse_retry_after, parse_grpc_retry_pushback"]}
{"id": "C21", "title": "A limited gate admits at most N requests; a shut gate admits none", "statement": "After a gate is limited to N, at most N requests pass until it is changed again; while shut no new permit is granted and waiting callers wait; permits obtained before a change of state are honoured at most once each.", "quantifier": "every interleaving of open/limit/shut, readiness polls and calls by any number of clones", "why_tests_cant": "Schedules of concurrent clones.", "anchors": ["linkerd/stack/src/gate.rs: Gate::poll_ready, call, Tx::open, limit, shut"]}
{"id": "C22", "title": "Failfast engages only after the timeout and disengages when the service recovers", "statement": "A failfast service fails a request immediately only if the inner service has been continuously unready for at least the timeout since it first was seen pending; it stops failing requests as soon as it observes the inner service ready; while failing fast, the gate in front is shut.", "quantifier": "every schedule of inner readiness, timer expiry and polls", "why_tests_cant": "All schedules.", "anchors": ["linkerd/stack/src/failfast.rs: FailFast::poll_ready, call"]}
{"id": "C23", "title": "The balancer holds exactly the discovered endpoints and picks the less loaded of two distinct ready ones", "statement": "After any sequence of discovery updates the pool holds services for exactly the addresses in the resulting set, one of them built from the latest target for that address (an older one only serves until the latest has become ready), a service is never used again once its address was absent, an endpoint whose target did not change is not rebuilt, the endpoint gauge equals the number of addresses; a request goes to an endpoint of the pool that is ready and whose load is not greater than that of another distinct sampled ready endpoint.", "quantifier": "every sequence of updates, every random choice and every load", "why_tests_cant": "Unbounded update histories and all random draws.", "anchors": ["linkerd/pool/p2c/src/lib.rs: reset_pool, add_endpoint, remove_endpoint, p2c_ready_index, gen_pair, poll_ready, call"]}
{"id": "C24", "title": "Every queued request is answered exactly once, in order of arrival for dispatch", "statement": "Every request accepted by the balancer queue is either dispatched once to the pool, or failed once (failfast or terminal error); dispatched requests keep arrival order; when discovery or the pool fails for good, every request still queued, and every later client that passes the gate, gets the same error; a request fails fast only after the pool was not ready for the timeout, and no request needs to wait longer than that; the gate is shut exactly from the first request that fails fast until the pool is found ready.", "quantifier": "every interleaving of request arrivals, discovery updates, pool readiness and failures", "why_tests_cant": "All schedules of a concurrent worker.", "anchors": ["linkerd/proxy/balance/queue/src/worker.rs: spawn, drive_pool, ready_pool_for_request, Terminate", "linkerd/proxy/balance/queue/src/failfast.rs", "linkerd/proxy/balance/queue/src/service.rs"]}
{"id": "C25", "title": "Endpoint readiness gauges equal the number of endpoints in each state", "statement": "At all times the ready (pending) gauge equals the number of live endpoints whose last successful readiness poll was ready (pending); both return to zero when all endpoints are dropped.", "quantifier": "every interleaving of endpoint creation, polls (ready, pending, error) and drops", "why_tests_cant": "An invariant over interleavings of many endpoints sharing counters.", "anchors": ["linkerd/proxy/balance/gauge-endpoints/src/lib.rs: GaugeBalancerEndpoint::poll_ready, Drop"]}
{"id": "C26", "title": "The idle cache never evicts a service in use and holds one value per key", "statement": "As long as some handle for a key is held, lookups of that key return the same value; a value inserted permanently is never evicted; a value is only evicted after a full idle timeout without handles (refuted for one race at the expiry instant); lookups never panic.", "quantifier": "every interleaving of lookups, handle clones and drops, and timer expiries, over any keys", "why_tests_cant": "Concurrent schedules around the expiry instant.", "anchors": ["linkerd/idle-cache/src/lib.rs: get, get_or_insert_with, insert_permanent, evict, Cached::drop"]}
{"id": "C27", "title": "Traffic distribution only uses available backends of non-zero weight", "statement": "A first-available distribution sends every request to the first ready backend in the configured order; a weighted distribution with two or more backends never sends a request to a backend of weight zero nor to one that was not ready when polled, and reports pending only when every positive-weight backend is pending. Each draw falls to one backend, in proportion to the weights. (Refuted: a backend of weight zero gets no requests, since a lone backend does whatever its weight; any weights make a distribution, since two or more that are all zero or exceed a u32 panic.)", "quantifier": "every list of backends and weights, every random draw and readiness schedule", "why_tests_cant": "All weights, draws and readiness patterns.", "anchors": ["linkerd/distribute/src/service/first.rs", "linkerd/distribute/src/service/random.rs", "linkerd/distribute/src/params.rs"]}
{"id": "C28", "title": "A client is authorized exactly when some authorization covers its network and its identity", "statement": "A connection or request is authorized exactly when some listed authorization has a network that contains the client's address and none of whose exceptions does, and whose authentication requirement is met: none; any TLS; or a client identity that is listed or, for DNS identities, ends with a listed suffix. A client that is not authenticated is never accepted by an authorization that requires an identity. (Refuted: listing an identity admits its holder whatever the letter case: client names are lower-cased, listed ones are not.)", "quantifier": "every authorization list, client address (IPv4/IPv6) and TLS status", "why_tests_cant": "Security property over all policies and clients.", "anchors": ["linkerd/app/inbound/src/policy.rs: is_authorized, is_tls_authorized", "linkerd/proxy/server-policy/src/authz.rs: Suffix::contains", "linkerd/proxy/server-policy/src/authz/network.rs: Network::contains"]}
{"id": "C29", "title": "TCP connections are dropped when their authorization is revoked", "statement": "A forwarded TCP connection is allowed to start only if the policy in force authorizes it; and when the policy changes to one that no longer does, the connection is terminated, no matter how changes and connection progress interleave; changes that keep it authorized do not terminate it.", "quantifier": "every sequence of policy updates interleaved with connection progress", "why_tests_cant": "Races between policy updates and the connection.", "anchors": ["linkerd/app/inbound/src/policy/tcp.rs: TcpPolicy::call, check_authorized"]}
{"id": "C30", "title": "HTTP policy is enforced before the request reaches the application", "statement": "A request reaches the application only if a route matched it, some authorization of that route covers the client, its filters let it pass and the rate limit admitted it; otherwise the client gets respectively a route-not-found, unauthorized, redirect/injected-failure or rate-limit result, decided in this order.", "quantifier": "every policy, route set, client and request", "why_tests_cant": "All policies and requests; order of checks.", "anchors": ["linkerd/app/inbound/src/policy/http.rs: HttpPolicyService::call, authorize, check_rate_limit, apply_http_filters"]}
{"id": "C31", "title": "Rate limits admit no more than their budget", "statement": "Over any sequence of requests, no more requests are admitted in any period than by the total's limiter asked by all of them; for a client with an override only the override (besides the total) applies, and distinct identities do not consume each other's budget; unauthenticated clients share one budget. (Refuted: a request rejected by its identity's limit does not consume the total budget.)", "quantifier": "every configuration and every sequence of requests by any identities at any times", "why_tests_cant": "Unbounded histories.", "anchors": ["linkerd/proxy/server-policy/src/local_rate_limit.rs: LocalRateLimit::check, try_from"]}
{"id": "C32", "title": "Accepting a connection never panics whatever the policy does meanwhile", "statement": "Whatever policy updates happen while a connection's protocol is being detected, the connection ends up in one of the forwarding or HTTP stacks. (Refuted: an update to an opaque or TLS policy during TLS detection reaches an unreachable! branch.)", "quantifier": "every sequence of policy updates interleaved with detection stages", "why_tests_cant": "A race between policy updates and detection, not exercised by tests.", "anchors": ["linkerd/app/inbound/src/detect.rs: push_detect, push_detect_http"]}
{"id": "C33", "title": "Load biasing records each outcome once and never hides load", "statement": "For each request exactly one latency observation is recorded; the recorded value of a request answered with a failure is at least the configured penalty and at least the current estimate; a server-provided retry hint is capped; the reported load is the latency estimate times one plus the number of requests in flight, and in-flight returns to zero when all responses finished.", "quantifier": "every interleaving of requests, responses, failures, cancellations and load queries", "why_tests_cant": "Interleavings of many requests sharing state.", "anchors": ["linkerd/load-biaser/src/lib.rs: LoadBiaser call, Handle::drop, effective_rtt, load, future poll"]}
{"id": "C34", "title": "No trace header can crash the proxy", "statement": "Parsing any traceparent / b3 / grpc-trace-bin header terminates with a context or nothing. (Refuted: a traceparent whose flags field is empty panics.)", "quantifier": "every header value", "why_tests_cant": "All byte strings.", "anchors": ["linkerd/trace-context/src/propagation/w3c.rs: parse_context", "linkerd/trace-context/src/propagation/b3.rs", "linkerd/trace-context/src/propagation.rs"]}
{"id": "C35", "title": "Trace propagation preserves the trace id and flags and links the parent", "statement": "When a request carries a valid trace header, the forwarded header decodes to the same trace id and flags with the new span id as its parent, for the W3C and the binary gRPC format.", "quantifier": "every valid trace header and every new span id", "why_tests_cant": "Encode/decode round trips over all ids.", "anchors": ["linkerd/trace-context/src/propagation/w3c.rs: increment_http_span_id, parse_header_value", "linkerd/trace-context/src/propagation/b3.rs: increment_grpc_span_id, unpack_grpc_trace_context"]}
{"id": "C36", "title": "Response timeouts are enforced at their deadlines", "statement": "With a response-headers timeout h, a response-end timeout e and a lifetime limit, waiting for headers fails no later than the earliest applicable deadline and never before it. (Refuted when e < h: headers may arrive after e without a timeout.)", "quantifier": "every combination of timeouts and every arrival time", "why_tests_cant": "All combinations and schedules.", "anchors": ["linkerd/http/stream-timeouts/src/lib.rs: EnforceTimeouts::call, ResponseFuture::poll, poll_body_timeout"]}
{"id": "C37", "title": "The idle timeout fires only after real inactivity", "statement": "A stream is ended for idleness only if no frame was received on either its request or response body during the whole idle period before; activity in either direction restarts the period.", "quantifier": "every schedule of frames and polls in both directions", "why_tests_cant": "All schedules with a shared timestamp.", "anchors": ["linkerd/http/stream-timeouts/src/lib.rs: Idle::reset, poll_idle, RequestBody::poll_frame, ResponseBody::poll_frame"]}
{"id": "C38", "title": "Protocol detection never loses bytes", "statement": "Whatever HTTP or TLS detection decides, and however bytes arrive, the stream handed to the next layer yields every byte the client sent, in order, exactly once (unless TLS is terminated here or the connection failed).", "quantifier": "every byte stream and every split into reads", "why_tests_cant": "All streams and read schedules.", "anchors": ["linkerd/http/detect/src/lib.rs: detect", "linkerd/tls/src/server.rs: detect_sni", "linkerd/io/src/prefixed.rs"]}
{"id": "C39", "title": "SNI detection gives the same answer however the ClientHello is split", "statement": "Once SNI parsing of a prefix of the stream gives an answer, every longer prefix gives the same answer; hence the decision to terminate, pass through or treat as plaintext does not depend on how the bytes were segmented.", "quantifier": "every byte stream and all its prefixes", "why_tests_cant": "Infinite input space; needs a monotonicity proof of the parser.", "anchors": ["linkerd/tls/src/server/client_hello.rs: parse_sni, extract_sni, read_vector"]}
{"id": "C40", "title": "TLS detection buffers a bounded number of bytes", "statement": "While looking for a ClientHello no more than a fixed number of bytes is buffered. (Refuted: a malformed but complete record keeps detection buffering for as long as bytes arrive, until the timeout.)", "quantifier": "every byte stream", "why_tests_cant": "Needs unboundedly long adversarial streams.", "anchors": ["linkerd/tls/src/server.rs: detect_sni", "linkerd/tls/src/server/client_hello.rs: read_vector"]}
{"id": "C41", "title": "DNS names are accepted exactly when syntactically valid", "statement": "A byte string is accepted as a DNS name exactly when it is at most 253 bytes long and consists of non-empty labels of at most 63 letters, digits, hyphens and underscores, not starting or ending with a hyphen, separated by dots, with an optional final dot and a last label that is not all digits; the accepted name is its lower-case form, so names differing in case only are equal.", "quantifier": "every byte string", "why_tests_cant": "State-machine validator against a grammar for all strings.", "anchors": ["linkerd/dns/name/src/name.rs: is_valid_dns_id, NameRef::to_owned"]}
{"id": "C42", "title": "Name suffix matching respects label boundaries", "statement": "A suffix contains a name exactly when, trailing dots aside, the name equals the suffix or ends with a dot followed by the suffix; the root suffix contains every name.", "quantifier": "every suffix and name", "why_tests_cant": "Infinite domain.", "anchors": ["linkerd/dns/name/src/suffix.rs: Suffix::contains"]}
{"id": "C43", "title": "Named addresses survive printing and parsing", "statement": "Printing a named address and parsing it gives back the same name (without trailing dot) and port; parsing fails when the port is missing or not a 16-bit number.", "quantifier": "every valid name and port", "why_tests_cant": "All names and all decimal renderings.", "anchors": ["linkerd/addr/src/lib.rs: NameAddr::from_str, Display for NameAddr"]}
{"id": "C44", "title": "Resolution recovery never leaves stale endpoints", "statement": "However often the discovery stream fails and reconnects, after the first endpoint update of the current connection the client's view of the endpoints equals what that connection alone has announced; between connections the last view is kept; a failing reconnect continues the same backoff sequence.", "quantifier": "every sequence of updates, errors, end of streams and reconnects", "why_tests_cant": "Unbounded histories of failures.", "anchors": ["linkerd/proxy/resolve/src/recover.rs: Resolution::poll_next, Inner::poll_connected"]}
{"id": "C45", "title": "Histograms count every observation once and report cumulative buckets", "statement": "After any sequence of observations the sum of the buckets equals the number of observations, each observation is in the first bucket whose bound is not less than it, the reported bucket series is non-decreasing and ends with the count, and the sum is the total of observed values modulo 2^64.", "quantifier": "every bucket list accepted by the constructor that ends with +Inf and every sequence of observations", "why_tests_cant": "Unbounded histories and wrap-around.", "anchors": ["linkerd/metrics/src/histogram.rs: Histogram::new, add, fmt_metric", "linkerd/metrics/src/counter.rs: Counter::add"]}
{"id": "C46", "title": "A well-formed ClientHello is recognised as soon as, and not before, it is complete", "statement": "For every ClientHello record of at most 8192 bytes laid out as the TLS specifications say, detection answers with exactly the host name of its server_name extension (normalised as a DNS name), or with no name if it has none, whatever follows the record, and takes no decision on a proper prefix of the record.", "quantifier": "every random, session id, cipher list, compression list, extension list and name; every following bytes; every prefix", "why_tests_cant": "The layouts are unbounded combinations of variable-length fields.", "anchors": ["linkerd/tls/src/server/client_hello.rs: parse_sni, extract_sni, read_vector, skip_vector"]}
{"id": "C47", "title": "Replay bodies honour the contracts of HTTP bodies and buffers", "statement": "A replayed body that reports the end of its stream has nothing more to give; its buffer hands out its bytes in order and completely through advance and copy_to_bytes, panicking only when asked for more than it holds; an unread buffer never shows an empty first chunk; the lower size hint never exceeds what is still to come.", "quantifier": "every body, schedule of polls, clones and drops, buffer content and request size", "why_tests_cant": "Contracts over all frame layouts; the empty frame case is not in the tests.", "anchors": ["linkerd/http/retry/src/replay/buffer.rs: Replay as Buf", "linkerd/http/retry/src/replay.rs: is_end_stream, size_hint"]}
{"id": "C48", "title": "Looking ahead at the trailers does not change the response", "statement": "When the proxy reads ahead in a response body to see its trailers, the client still receives exactly the frames the server sent, in order, including errors; a body of more than one data frame is passed on without waiting for its end; and the trailers are known in advance only if they come after at most one data frame.", "quantifier": "every response body and every pattern of pending polls", "why_tests_cant": "Bodies have any number of frames, and each may arrive at any time.", "anchors": ["linkerd/http/retry/src/peek_trailers.rs: PeekTrailersBody::map_response, read_body, poll_frame"]}
{"id": "C49", "title": "A tripped breaker tries the endpoint again", "statement": "After the breaker has shut, and once the backoff is over, the endpoint is always offered one more request, and its response decides; the endpoint is never closed for ever while it is still in use. (The first half holds. The second is refuted: if the probe request is cancelled before it has a response, nothing is decided and the endpoint stays closed for ever.)", "quantifier": "every breaker, every backoff and every schedule of requests, responses, cancellations and polls", "why_tests_cant": "needs all schedules, and an unbounded future for the refutation", "anchors": ["linkerd/app/outbound/src/http/breaker/consecutive_failures.rs: ConsecutiveFailures::closed, probation", "linkerd/app/outbound/src/http/breaker/unified.rs: closed, probation", "linkerd/http/classify/src/channel.rs: ResponseFuture"]}
{"id": "C50", "title": "Each response is classified exactly once and as its policy says", "statement": "A response is classified when its body ends, fails or is dropped, exactly once; the class is a failure exactly when the policy says so: the status is in the failure ranges for HTTP, the gRPC status (from the headers, else the trailers) is a failure code for gRPC, the first matching class of a profile decides. A failed request is classified as a failure, a request dropped before it has a response not at all. (That a gRPC call without status is a failure is refuted.)", "quantifier": "every policy, request, response, sequence of body frames and drop point", "why_tests_cant": "quantifies over all policies, headers and frame sequences", "anchors": ["linkerd/app/core/src/classify.rs: Request::classify, Response::start, Eos::eos, grpc_code", "linkerd/http/classify/src/channel.rs: ResponseFuture::poll, ResponseBody::poll_frame, drop", "linkerd/service-profiles/src/http.rs: ResponseMatch::is_match"]}
{"id": "C51", "title": "Localhost is always permitted by discovered policies, and nobody else because of it", "statement": "Whatever authorizations the control plane sends, a connection from 127.0.0.1 or ::1 is authorized; any other client is authorized only if one of the received authorizations authorizes it.", "quantifier": "every list of authorizations, client address and TLS status", "why_tests_cant": "All policies and addresses.", "anchors": ["linkerd/proxy/server-policy/src/lib.rs: proto mk_authorizations with localhost", "linkerd/proxy/server-policy/src/authz.rs: proto::mk_authorizations"]}
{"id": "C52", "title": "Backend services live exactly as long as their backends are listed", "statement": "After every update of the configured backends the proxy holds exactly one service per listed backend; a backend listed in consecutive updates keeps its service (and with it its connections and load state), a backend that is no longer listed loses it for good, and looking up a listed backend never fails. Requests with the same route key share one service, requests with different keys never do.", "quantifier": "every sequence of backend sets, every sequence of request keys", "why_tests_cant": "All histories of updates.", "anchors": ["linkerd/distribute/src/cache.rs: NewBackendCache::new_service, BackendCache::new_service", "linkerd/router/src/cache.rs: Cache::new_service"]}
{"id": "C53", "title": "HTTP metrics count each request and each outcome once", "statement": "Whatever the interleaving of requests, the request total is the number of requests that had no body or whose body was read; the response total of each status and class is the number of requests that failed or whose response ended, failed or was dropped and was classified so, each once; the latencies of each status are the times from the request to the first frame of the response body (or its drop); a call that is cancelled before it has a response is not in the response total. (That each response has a latency, that the latency spans the response as the metric's help says, and that there are at least as many requests as responses, is refuted.)", "quantifier": "every classifier and every interleaving of requests, body polls, responses, errors, cancellations and drops", "why_tests_cant": "All interleavings of any number of requests.", "anchors": ["linkerd/http/metrics/src/requests/service.rs: HttpMetrics::call, ResponseFuture::poll, RequestBody::poll_frame, ResponseBody::poll_frame, drop, record_latency, measure_class"]}
{"id": "C54", "title": "Connection metrics count each connection's opening and end once", "statement": "Whatever the interleaving of connections, the open total is the number of connections opened, the gauge the number of those that have neither failed nor been dropped, the close total of each error code is the number of connections whose first error was that (or that were dropped without one), and the byte totals are those transferred until then; `WouldBlock` ends nothing. (That all transferred bytes are counted is refuted: after its first error a connection is no longer counted, though it may still be used.)", "quantifier": "every interleaving of operations, results and drops of any number of connections", "why_tests_cant": "All interleavings of any number of connections.", "anchors": ["linkerd/transport-metrics/src/sensor.rs: Sensor::open, record_read, record_write, record_close, record_error, drop", "linkerd/io/src/sensor.rs: SensorIo"]}
{"id": "C55", "title": "Metrics of a target are shared, reported and kept while in use", "statement": "All services of a target share its metrics: a report has exactly one entry per known target, with everything recorded through any of them; while any of them is alive the target's metrics are never dropped, so nothing recorded is lost between reports; when none is, they are dropped by the first report that comes later than the idle time after their last update, and not before.", "quantifier": "every history of services being built, cloned, dropped, recording and of reports", "why_tests_cant": "All histories.", "anchors": ["linkerd/metrics/src/store.rs: Store::get_or_default, retain_since", "linkerd/metrics/src/new_metrics.rs: NewMetrics::new_service", "linkerd/http/metrics/src/requests/report.rs: fmt_metrics", "linkerd/transport-metrics/src/report.rs: fmt_metrics"]}
{"id": "C56", "title": "The endpoints in use are those that discovery announced", "statement": "After any history of discovery messages, an endpoint is known at an address, with some metadata, exactly when the last message about that address announced it so: address, weight, labels (its own before those of its set), protocol hint, transport port, identity and name, authority and HTTP/2 parameters are what the message says, whatever the order in which maps are traversed; what is removed is gone, and nothing is known after the authority was said not to exist. (That invalid ports are refused is refuted: they are taken modulo 2^16; and so is that an endpoint given an identity is always used with it: one whose URI identity comes without a server name, or whose identity is invalid, is used in plaintext.)", "quantifier": "every history of discovery messages, every message, every behaviour of the external parsers", "why_tests_cant": "All histories of messages.", "anchors": ["linkerd/proxy/api-resolve/src/pb.rs: to_addr_meta, to_identity, to_sock_addr, to_http2_client_params", "linkerd/proxy/api-resolve/src/resolve.rs: resolution", "linkerd/proxy/api-resolve/src/metadata.rs: Metadata"]}
{"id": "C57", "title": "Endpoints are connected to as discovered", "statement": "A connection goes without TLS exactly to endpoints on this host and to endpoints discovered without an identity, and then to the endpoint's own address with nothing written before the data. Otherwise the identity required of the peer and the name asked for are those discovered, the host is the endpoint's, the port is the discovered transport port if any, the transport header is negotiated exactly if there is a transport port or an authority, and is written exactly if it was negotiated, saying where the connection is to go. After any history of discovery, an endpoint of another host last announced with an identity is connected to with TLS and as that identity only. HTTP/1 is upgraded to HTTP/2 exactly on hint, and never on this host. (That a gateway is always told the authority it is to forward to is refuted: not if the authority has no port.)", "quantifier": "every endpoint, every negotiated protocol, every discovery history", "why_tests_cant": "All endpoints and histories.", "anchors": ["linkerd/app/outbound/src/http/concrete.rs: Endpoint, Param impls", "linkerd/app/outbound/src/tcp/tagged_transport.rs: TaggedTransport::call", "linkerd/app/outbound/src/opaq/concrete.rs", "linkerd/app/outbound/src/tls/concrete.rs"]}
{"id": "C58", "title": "Requests that require an identity reach nobody else", "statement": "A request with `l5d-require-id` is forwarded exactly if the endpoint is connected to with TLS as that identity, and refused with an error naming both identities otherwise; the header itself is never forwarded, and other headers are untouched. (That every such request is checked is refuted: a value that cannot be parsed is ignored, so the request goes to anyone, even in plaintext; and of several values only the first counts.)", "quantifier": "every request, every endpoint, every identity", "why_tests_cant": "All header lists and identities.", "anchors": ["linkerd/app/outbound/src/http/require_id_header.rs: RequireIdentity::call, extract_id"]}
{"id": "C59", "title": "Direct connections are served only to authenticated clients, under the right policy", "statement": "A connection to the proxy's own port is served exactly if the client proved an identity and negotiated the transport header; it is served as that client; if the header has no name it goes to the header's port on this host under that port's policy; if it has one it goes through the gateway under the policy of the port it came to. From one proxy to the other, however the stream is segmented: what the outbound proxy writes for an endpoint makes the inbound proxy take the connection to exactly that endpoint's port, check its policy, and leave the payload intact.", "quantifier": "every TLS state, header, endpoint and segmentation of the stream", "why_tests_cant": "All headers and all segmentations of the stream.", "anchors": ["linkerd/app/inbound/src/direct.rs: push_direct, ClientInfo::try_from, header_negotiated", "linkerd/app/outbound/src/tcp/tagged_transport.rs", "linkerd/transport-header/src/server.rs"]}
{"id": "C60", "title": "HTTP/1 requests sent over HTTP/2 between proxies arrive as they were", "statement": "A request of HTTP/1.0 or HTTP/1.1 that one proxy sends to another over HTTP/2 reaches the server behind the other with its method, version, URI, form (origin or absolute) and headers, except those of the connection, `l5d-orig-proto` and `transfer-encoding`; its response comes back with its status, version and headers likewise. Every request is sent by a client that is configured for its form. (Refuted: a client of HTTP/2 can itself send `l5d-orig-proto`, and its request then becomes one of HTTP/1; a retried request loses its form.)", "quantifier": "every request and response of HTTP/1, every default authority", "why_tests_cant": "All header lists, URIs, versions and forms.", "anchors": ["linkerd/proxy/http/src/orig_proto.rs: Upgrade::call, Downgrade::call, was_absolute_form", "linkerd/proxy/http/src/h1.rs: Client::request", "linkerd/http/upgrade/src/upgrade.rs: Service::call", "linkerd/proxy/http/src/normalize_uri.rs"]}
{"id": "C61", "title": "Headers of the connection stop at the proxy, and upgrades become one tunnel", "statement": "Of a message that does not switch protocols exactly the headers of the connection are removed (`connection`, what it lists, `upgrade`, `proxy-connection`, `keep-alive`), and the others are kept in their order; messages that switch protocols keep them. Requests whose target is not one for their method are answered with 400. A request makes at most one tunnel, whatever the order in which the two sides finish, and makes one exactly if its body has ended and the client's side was given, which happens exactly when the request asked for it and the response switches. (Refuted: what a second `connection` header lists is forwarded; a CONNECT that also has `upgrade: h2c` has no tunnel although it is answered with success; `H2C` in capitals is not declined; a retried request loses its tunnel.)", "quantifier": "every message, every order in which the two sides finish", "why_tests_cant": "All header lists, and all interleavings of the two sides.", "anchors": ["linkerd/http/upgrade/src/lib.rs: strip_connection_headers", "linkerd/http/upgrade/src/upgrade.rs: Service::call, Http11Upgrade, Inner", "linkerd/http/upgrade/src/glue.rs: UpgradeBody", "linkerd/proxy/http/src/h1.rs: Client::request, is_upgrade"]}
{"id": "C62", "title": "Requests have the authority they were sent to", "statement": "A request of HTTP/1 that has no authority in its target is given the one of its `host` header, or else the connection's; it is refused exactly if there is neither, and every other request is left alone, so that every served request of HTTP/1 has an authority. Setting an authority never panics and keeps the path and query. An endpoint's authority replaces the request's and removes the headers that say another. (Refuted: a scheme of https becomes http; a peer that claims absolute form over HTTP/2 without an authority has a request served that has none.)", "quantifier": "every request, every default and overriding authority, every behaviour of the parser of authorities", "why_tests_cant": "All URIs and header lists.", "anchors": ["linkerd/proxy/http/src/normalize_uri.rs: NormalizeUri::call, MarkAbsoluteForm::call", "linkerd/http/override-authority/src/lib.rs: set_authority, OverrideAuthority::call", "linkerd/app/outbound/src/http/endpoint.rs"]}
{"id": "C63", "title": "Names of the control plane resolve to what DNS says", "statement": "The addresses of a name are those that its SRV records name, each with its own port and in their order, if every SRV record names one; otherwise they are those of its A and AAAA records with the default port; there is an error exactly if there are neither, and it carries both reasons. The SRV record of a pod (`10-1-2-3.\u2026`) gives its address, for every address. Socket addresses resolve to themselves and `localhost.`, in any case, to 127.0.0.1. (Refuted: one SRV record that names no address makes the others unused; an answer without SRV records gives no addresses although there are A records.)", "quantifier": "every answer of the resolver, every name, every IPv6 parser", "why_tests_cant": "All answers, addresses and names.", "anchors": ["linkerd/dns/src/lib.rs: Resolver::resolve_addrs, resolve_srv, srv_to_socket_addr", "linkerd/proxy/dns-resolve/src/lib.rs: DnsResolve::call"]}
{"id": "C64", "title": "DNS is asked again when due, forever, and never in a hot loop", "statement": "However the resolver, the balancer and the clock behave: a lookup that succeeded is not repeated before what it found expires nor within five seconds; after a failure that says for how long there is nothing the n-th retry comes no sooner than n times that (at least five seconds each), and otherwise after the backoff; altogether at most one lookup per five seconds (or per least backoff) is made. The balancer is given exactly what was found, in order. It never gives up. (Refuted: what failures after the first say is not waited for; after a lookup that is slow to fail the next ones follow in less than five seconds.)", "quantifier": "every history of answers, polls and times", "why_tests_cant": "All schedules and times.", "anchors": ["linkerd/proxy/dns-resolve/src/lib.rs: resolution", "linkerd/dns/src/minimum_ttl.rs", "linkerd/dns/src/lib.rs: ResolveError::negative_ttl", "linkerd/app/core/src/control.rs: ResolveRecover::recover", "linkerd/proxy/resolve/src/recover.rs"]}
{"id": "C65", "title": "A request that fails is answered according to why it failed", "statement": "When a request fails inside the proxy, the client receives a response, or the error itself, that is determined by the causes of the error alone: the first rule of the proxy's table (for example refused by policy: 403 / PERMISSION_DENIED; timed out: 504 / DEADLINE_EXCEEDED; no connection: 502 / UNAVAILABLE) that applies to any of the causes decides. gRPC clients receive an HTTP 200 with the code in grpc-status, other clients the status in their own version of HTTP; the client's connection is closed exactly when the rule says so, which is mentioned in a `connection` header exactly for HTTP/1.1 clients of this proxy. The text of an error is only told to clients that are to be told about errors, and never makes a malformed header. But for redirects and injected failures a failed request never looks as if it had succeeded.", "quantifier": "all errors, with any chain of causes and any text; all requests; all five places where errors are answered; clients that are told about errors and that are not", "why_tests_cant": "the rules are consulted in an order on chains of causes of any length, whose texts are arbitrary bytes; tests try single errors with short texts", "anchors": ["linkerd/app/core/src/errors/respond.rs: SyntheticHttpResponse, NewRespond, Respond", "linkerd/app/outbound/src/http/server.rs: ServerRescue", "linkerd/app/outbound/src/http/endpoint.rs: ClientRescue", "linkerd/app/inbound/src/http/server.rs: ServerRescue", "linkerd/app/inbound/src/http/router.rs: ClientRescue", "linkerd/app/admin/src/stack.rs: Rescue", "linkerd/error/src/lib.rs: is_caused_by, cause_ref"]}
{"id": "C66", "title": "A gRPC stream that fails ends with trailers", "statement": "When the body of a response to a gRPC client fails, the client receives everything that came before the error, then trailers with the grpc-status that the error is answered with, then the end of the stream; nothing that the failed body would yield afterwards is forwarded. Streams that do not fail, and all streams of other clients, are unchanged.", "quantifier": "all sequences of frames, pauses and errors that a body may yield; all errors", "why_tests_cant": "the error may come at any point of a stream of any length, and the body may be polled again after it", "anchors": ["linkerd/app/core/src/errors/body.rs: ResponseBody::poll_frame, rescue", "linkerd/app/core/src/errors/respond.rs: Respond::respond"]}
{"id": "C67", "title": "What proxies tell each other of errors stays between them", "statement": "The outbound proxy removes the l5d-proxy-error and l5d-proxy-connection headers from every response it receives. It closes the connection of its application exactly if the peer is in the mesh, requests are forwarded to that endpoint alone, and the first l5d-proxy-connection header is `close`; an HTTP/1.1 response then says `connection: close`. So an error for which the peer's proxy closes connections closes the application's, whatever version of HTTP either uses.", "quantifier": "all responses, with any headers; all endpoints; all errors of the peer's proxy", "why_tests_cant": "responses may carry any headers, also several of a name, and the effect spans two proxies and a change of protocol", "anchors": ["linkerd/app/outbound/src/http/handle_proxy_error_headers.rs: NewHandleProxyErrorHeaders, update_response", "linkerd/app/core/src/errors/respond.rs", "linkerd/proxy/http/src/orig_proto.rs"]}
{"id": "C68", "title": "A watch of the control plane shows the latest update, survives failures, and retries with backoff", "statement": "A watch of a policy, profile or identity always shows the last update that the control plane delivered, or its initial value before the first one; every update is published, in order, whatever lookups and streams failed in between. It stops only after a failure that is defined as permanent (InvalidArgument and FailedPrecondition for inbound policies and profiles, also NotFound and Unimplemented for outbound policies, InvalidArgument for SPIRE) or when nobody reads it any more; before that, once the control plane is back its next update is shown after at most one wait. Two lookups have a wait between them unless the first one delivered something, lookups that keep failing use one growing backoff, and a delivered update resets it. Refuted: that there is always a wait between lookups (a stream that delivers and ends is looked up again at once, for ever), and that a watch nobody reads stops (one with an initial value goes on until its first lookup succeeds).", "quantifier": "all sequences of deliveries, failures with any code, backoff events and drops of the receivers, of any length", "why_tests_cant": "the sequence of stream failures and deliveries is unbounded; tests run one reconnection", "anchors": ["linkerd/tonic-watch/src/lib.rs: StreamWatch::{spawn_watch,spawn_with_init,init,publish_updates,recovering_next}", "linkerd/app/inbound/src/policy/api.rs: GrpcRecover", "linkerd/app/outbound/src/policy/api.rs: GrpcRecover", "linkerd/app/src/dst.rs: BackoffUnlessInvalidArgument", "linkerd/proxy/spire-client/src/api.rs: GrpcRecover"]}
{"id": "C69", "title": "Streams from the control plane are bounded by the initial, idle and lifetime limits and otherwise unchanged", "statement": "With receive limits, a stream yields exactly the items and errors of the stream it limits, in order, until it is older than its lifetime limit, counted from the response. If neither the response nor an item came within the initial limit of the call (the idle limit if there is no initial one), it fails with DeadlineExceeded; if it gave items but then none for the idle limit, it ends without an error. It ends or fails at no other time. Refuted: that the initial limit only bounds the wait for the first item: without an idle limit it ends streams that gave items.", "quantifier": "all limits, call times and sequences of polls at non-decreasing times with any behaviour of the inner stream", "why_tests_cant": "the outcome depends on the times of all polls and items; tests use three schedules", "anchors": ["linkerd/tonic-stream/src/lib.rs: LimitReceiveFuture, LimitReceiveStream", "linkerd/app/src/env/control.rs: mk_receive_limits"]}
{"id": "C70", "title": "The policy of a port", "statement": "Whenever a connection to a port has been given its policy, what it reads is what the control plane sent last on that port's watch, and before any answer exactly what the configuration says: the port's own policy, else the default policy, made opaque for ports listed as opaque. Ports never share a watch, connections to one port share one until it is evicted as idle, and ports listed in the configuration keep theirs for ever.", "quantifier": "every configuration, every history of lookups, policy updates and evictions, and every port", "why_tests_cant": "The policy in force depends on the interleaving of lookups, updates and evictions of all ports, of which a test runs one.", "anchors": ["linkerd/app/inbound/src/policy/store.rs: Store", "linkerd/app/inbound/src/policy/config.rs: Config::build", "linkerd/idle-cache/src/lib.rs: with_permanent_from_iter"]}
{"id": "C71", "title": "Whom the default policies admit", "statement": "Each default policy admits exactly the clients its name says (all or cluster networks, authenticated or not), for connections and for all requests; marking a port opaque does not change who may connect; the policy used in place of one that makes no sense admits nobody.", "quantifier": "every default policy name, cluster network set, client address, TLS status and request", "why_tests_cant": "It ranges over all addresses, identities and requests.", "anchors": ["linkerd/app/inbound/src/policy/defaults.rs", "linkerd/app/src/env.rs: parse_default_policy", "linkerd/proxy/server-policy/src/lib.rs: ServerPolicy::invalid", "linkerd/app/inbound/src/policy/store.rs: make_opaque"]}
{"id": "C72", "title": "The names of policy resources", "statement": "The labels or metadata with which the control plane describes a resource determine its group, kind and name, for older control planes that encode the kind in the name as well; equality of resources is equality of these three, and a resource that looks like a default is that default.", "quantifier": "every set of labels and every resource", "why_tests_cant": "It ranges over all label sets and names.", "anchors": ["linkerd/proxy/server-policy/src/meta.rs: Meta, try_new_with_default"]}
{"id": "C73", "title": "Servers sent by the control plane", "statement": "A server policy sent by the control plane is accepted exactly when all its parts are well formed, and otherwise denies everybody; what is accepted is enforced as sent: the same protocol and routes with the same hosts, matches and filters, an unknown filter failing its requests, and each route admitting exactly the clients that the route, the server, or being on the loopback interface admits.", "quantifier": "every server message, client and request", "why_tests_cant": "It ranges over all messages that a control plane of any version can send.", "anchors": ["linkerd/proxy/server-policy/src/lib.rs: TryFrom<api::Server>", "linkerd/proxy/server-policy/src/http.rs: try_route", "linkerd/proxy/server-policy/src/grpc.rs: try_route", "linkerd/proxy/server-policy/src/authz.rs: mk_authorizations", "linkerd/app/inbound/src/policy/api.rs"]}
{"id": "C74", "title": "The route of a profile that a request takes", "statement": "Whatever service profile the control plane sends, every request has a route: the first route of the profile whose condition can be used and holds of the request, with the labels, response classes, retries and timeout the profile gives it; a request to which none applies has none of these. A condition all of whose parts can be used means what it says. (Refuted: in a list of conditions those that cannot be used are left out, so a route for `all of` an unknown method and nothing else applies to every request.)", "quantifier": "every profile message, with conditions nested to any depth, every engine of regular expressions, every request", "why_tests_cant": "It ranges over all nested conditions and requests.", "anchors": ["linkerd/service-profiles/src/proto.rs: convert_profile, convert_route, convert_req_match", "linkerd/service-profiles/src/http.rs: RequestMatch::is_match, route_for_request", "linkerd/app/outbound/src/http/logical/profile.rs: Params, RouteParams"]}
{"id": "C75", "title": "The paths a profile's route applies to", "statement": "A path condition whose expression has no alternatives outside groups applies to exactly the paths that the expression matches as a whole, whether or not it is written with anchors and surrounding white space. One with two alternatives applies to the paths that begin as the first says or end as the second says. (Refuted: that an expression applies only to paths it matches as a whole: not with alternatives, an escaped dollar sign at the end, or an optional circumflex at the beginning.)", "quantifier": "every expression of the core syntax (characters, escapes, dot, anchors, repetition, alternatives, groups) and every path", "why_tests_cant": "It ranges over all expressions and paths.", "anchors": ["linkerd/service-profiles/src/proto.rs: convert_req_match (Path)", "linkerd/service-profiles/src/http.rs: RequestMatch::Path"]}
{"id": "C76", "title": "Classes, retries and timeouts of a profile", "statement": "A response of a route is a success or failure as the first of its classes says whose condition can be used and holds of the status; routes have retries exactly if they are retryable and the profile's budget makes sense (a time from 1 to 60 s, a ratio from 0 to 1000, fewer than 2^31 retries per second), which is then used as it is; they have the timeout they were sent with unless it is negative. (Refuted: that ranges of statuses are used as sent: 65736 is taken to be 200.)", "quantifier": "every message, with conditions nested to any depth, and every status", "why_tests_cant": "It ranges over all nested conditions, durations and ratios.", "anchors": ["linkerd/service-profiles/src/proto.rs: convert_rsp_class, convert_rsp_match, convert_retry_budget, set_route_retry, set_route_timeout"]}
{"id": "C77", "title": "Where a profile sends requests", "statement": "The destinations of a profile are its overrides that name one and have a weight, in order; each request goes to one of them by weight, or to the service itself if there are none. A profile replaces the client policy exactly if it names the service and has usable routes or destinations. (Refuted: that no profile makes the proxy panic: exactly those with two or more destinations whose weights together exceed 32 bits do.)", "quantifier": "every profile message and request", "why_tests_cant": "It ranges over all messages.", "anchors": ["linkerd/service-profiles/src/proto.rs: convert_dst_override", "linkerd/app/outbound/src/http/logical/profile.rs: should_override_policy, Params", "linkerd/distribute/src/params.rs"]}
{"id": "C78", "title": "Retries of service profiles", "statement": "A request whose route is retryable and whose body is known to be small enough is repeated only after a response the route classifies as a failure, each repeat is paid for by the route's retry budget, every attempt carries the same method, address, headers and body, and a route that is not retryable forwards the request exactly once.", "quantifier": "every route configuration, request, body, sequence of responses and budget decisions", "why_tests_cant": "A test fixes one script of failures and one budget; the bound on repeats and the sameness of every attempt must hold for all of them.", "anchors": ["linkerd/app/outbound/src/http/retry.rs: RetryPolicy, NewRetryPolicy", "linkerd/retry/src/lib.rs: Retry::call"]}
{"id": "C79", "title": "What is discovered about a destination", "statement": "A connection to a destination is routed by the policy the control plane gives for it; if the policy controller does not know the destination or does not serve policies, by what the service profile says, and else straight to its original destination, without TLS; any other failure of the policy lookup fails the connection, while no failure of the profile lookup does.", "quantifier": "every pair of answers, errors and chains of causes, every profile and all its later versions, every request", "why_tests_cant": "Tests try a few answers; the fallback must be right for every error and every profile update.", "anchors": ["linkerd/app/outbound/src/discover.rs: resolver, spawn_synthesized_profile_policy, policy_for_backend", "linkerd/app/outbound/src/ingress.rs: ingress_resolver", "linkerd/service-profiles/src/default.rs: RecoverDefault", "linkerd/service-profiles/src/allowlist.rs: WithAllowlist"]}
{"id": "C80", "title": "Routes follow the control plane", "statement": "Whatever the control plane publishes, and whenever the proxy gets to look, the routes in use are those of a published update, never older than those seen before, and the newest one's once the proxy has looked; updates that cannot be used are ignored, and the last routes stay when the watch ends.", "quantifier": "every history of updates, closings and task schedules", "why_tests_cant": "Schedules of the publishing and following tasks are unbounded.", "anchors": ["linkerd/app/outbound/src/http.rs: spawn_routes", "linkerd/app/outbound/src/opaq.rs: spawn_routes", "linkerd/app/outbound/src/tls.rs: spawn_routes", "linkerd/app/outbound/src/discover.rs: spawn_synthesized_profile_policy"]}
{"id": "C81", "title": "What serves an outbound connection", "statement": "An outbound connection is treated as opaque, HTTP/1, HTTP/2 or TLS as the service profile and the policy of its destination say, its first bytes being looked at only if the policy leaves it open; HTTP requests are routed by the profile if that has routes or targets and else by the policy, and this choice lasts as long as the routes do; every connection is served.", "quantifier": "every profile and policy, at every time they are read, every detection and every later history of both", "why_tests_cant": "The profile and the policy may change between any two reads; tests cannot cover these races.", "anchors": ["linkerd/app/outbound/src/sidecar.rs: Sidecar, HttpSidecar, TlsSidecar, OpaqSidecar", "linkerd/app/outbound/src/protocol.rs: push_protocol"]}
{"id": "C82", "title": "Where opaque traffic goes", "statement": "Opaque traffic to a service whose profile has targets is divided among these by weight, and other opaque traffic follows the policy of its destination; the service metrics show is the one a name of the form name.namespace.svc says.", "quantifier": "every profile, policy, target list and name", "why_tests_cant": "It ranges over all profiles and names.", "anchors": ["linkerd/app/outbound/src/opaq.rs: routes_from_discovery, routes_from_policy, routes_from_profile", "linkerd/app/outbound/src/lib.rs: service_meta"]}
{"id": "C83", "title": "Ingress mode", "statement": "In ingress mode a request goes to the name its l5d-dst-override header gives (port 80 by default) and a request without it to the connection's destination; it is refused if neither a profile nor a policy says how to route it; connections that are not HTTP go to their destination.", "quantifier": "every header list, profile, policy and time of reading", "why_tests_cant": "It ranges over all headers and all states of both watches.", "anchors": ["linkerd/app/outbound/src/ingress.rs: SelectTarget, TryFrom<Discovery<Http<RequestTarget>>>, policy_routes, Opaq"]}
{"id": "C84", "title": "What the texts of settings mean", "statement": "A duration is a number and one of the units ms, s, m, h and d, with blanks around it; only zero needs no unit. It stands for exactly that many units as long as 64 bits can count its seconds. Truth values, numbers, ports and port ranges, DNS suffixes, networks, IP addresses, socket addresses, names with ports and identities are read as documented, and any other text is refused.", "quantifier": "all texts (and, where parsing is the standard library's or another crate's, all such parsers)", "why_tests_cant": "Tests try some texts; that nothing else is accepted and that no text is read as something else concerns all of them.", "anchors": ["linkerd/app/src/env/types.rs", "linkerd/app/src/env.rs"]}
{"id": "C85", "title": "Settings are honoured, or the proxy does not start", "statement": "Every setting of an accepted configuration is what the environment says, or its default if the environment says nothing. The proxy accepts a configuration if and only if everything it reads is well formed and all that must be there is; nothing malformed is replaced by a default.", "quantifier": "all environments", "why_tests_cant": "There are about a hundred variables that could be misnamed, swapped or given the wrong default, in any combination.", "anchors": ["linkerd/app/src/env.rs: parse_config", "linkerd/app/src/env/http2.rs"]}
{"id": "C86", "title": "The control plane is authenticated unless it is local", "statement": "Every client of the control plane connects to the address that is configured and authenticates the server there by the name that is configured; it goes without TLS only if the address is the proxy's own host. A remote address without a name is refused.", "quantifier": "all environments", "why_tests_cant": "Tests cannot show that no combination of variables leads to an unauthenticated connection.", "anchors": ["linkerd/app/src/env.rs: parse_control_addr", "linkerd/app/src/env/identity.rs"]}
{"id": "C87", "title": "The proxy runs under exactly the identity it is given", "statement": "A proxy that starts has an identity, trust anchors and a server name: for Linkerd's identity service the identity is a DNS name and equal to the server name, and its token and documents can be read; for SPIRE it is a spiffe URI. Identity cannot be disabled.", "quantifier": "all environments, files and URI parsers", "why_tests_cant": "It concerns all combinations of a dozen variables, old and new names among them.", "anchors": ["linkerd/app/src/env/identity.rs: parse_tls_params, parse_linkerd_identity"]}
{"id": "C88", "title": "Limits and backoffs are consistent", "statement": "In every accepted configuration the initial, idle and lifetime limits of control-plane streams are in order where they are set, and every backoff has a minimum at most its maximum, a maximum that is not zero and a jitter from 0 to 100. A backoff is given as a whole or not at all; only the jitter may be left out.", "quantifier": "all environments", "why_tests_cant": "Tests try some combinations of values.", "anchors": ["linkerd/app/src/env/control.rs: mk_receive_limits", "linkerd/app/src/env.rs: parse_backoff", "linkerd/exp-backoff/src/lib.rs: try_new"]}
{"id": "C89", "title": "Attributes of traces", "statement": "The value of a trace attribute is that of the last line about it in OTEL_RESOURCE_ATTRIBUTES, or else in the extra attributes, or else in the attributes file, or else it is the service name; quotes around values are removed. Lines that are no attributes do not matter.", "quantifier": "all environments, files and attributes", "why_tests_cant": "Precedence among four sources with repeated keys has too many cases for tests.", "anchors": ["linkerd/app/src/env/trace.rs"]}
{"id": "C90", "title": "A proxied connection's bytes are forwarded unchanged", "statement": "At any time what the proxy has written to one socket of a proxied connection is exactly, and in order, the first part of what it has read from the other one; it holds back no more than 8 KiB in each direction and reads on only when all that it has read was written.", "quantifier": "all interleavings of readiness, sizes of reads and writes, ends and errors of the two sockets, at any point of the connection's life", "why_tests_cant": "Partial reads and writes, pending flushes and ends can come in any order; tests try some.", "anchors": ["linkerd/duplex/src/lib.rs: Duplex, HalfDuplex::copy_into, poll_buffer, drain_into, CopyBuf"]}
{"id": "C91", "title": "Half-closed connections", "statement": "A socket's output is shut down only after the other socket has come to its end and everything it sent has been written; it is shut down once, and nothing is read or written in that direction afterwards, while the other direction goes on.", "quantifier": "all interleavings as in C90", "why_tests_cant": "The end may come while bytes are still buffered or a flush is pending.", "anchors": ["linkerd/duplex/src/lib.rs: HalfDuplex::copy_into"]}
{"id": "C92", "title": "When a proxied connection is done, waits or fails", "statement": "Copying is done exactly when both directions are shut down, and then all bytes of both sides have been delivered. When it is pending, each direction is shut down or has registered for a wakeup with an incomplete call of that very poll, so nothing is stuck. It fails only when a call failed or a write took nothing. A poll goes on only as long as the sockets are ready; one busy direction may starve the other meanwhile.", "quantifier": "all interleavings as in C90", "why_tests_cant": "A lost wakeup shows only under particular schedules.", "anchors": ["linkerd/duplex/src/lib.rs: Duplex::poll"]}
{"id": "C93", "title": "Written bytes are flushed before waiting", "statement": "Before the proxy waits for more input it flushes what it has written in that direction, and an incomplete flush is taken up again before anything else. (False after a partial write: when the flush in between completes and the rest can be written, the rest is not flushed.)", "quantifier": "all interleavings as in C90", "why_tests_cant": "It takes a write that is taken partly, a flush that completes and a second write that is taken entirely.", "anchors": ["linkerd/duplex/src/lib.rs: HalfDuplex::copy_into, poll_flush"]}
{"id": "C94", "title": "Which route a TLS connection takes", "statement": "A TLS connection takes the rule of the first route whose server names match best among those that match: an exact name before a wildcard, a longer wildcard before a shorter one, and any name before none; it has no route exactly when none matches. An exact name matches only that server name and a wildcard only names of at least one further label under its suffix. Names are compared without regard to case (only when the route's names are lower case; a route whose name has an upper-case letter matches no client).", "quantifier": "all lists of routes and rules, all server names", "why_tests_cant": "Precedence is a property of all lists of routes; case only shows with unusual names.", "anchors": ["linkerd/tls/route/src/lib.rs: find, best", "linkerd/tls/route/src/sni.rs: MatchSni, SniMatch", "linkerd/app/outbound/src/tls/logical/router.rs"]}
{"id": "C95", "title": "Requests and TLS connections take the rule that the control plane's message says", "statement": "When a policy from the control plane is accepted, each HTTP request, gRPC request and TLS connection gets the policy of the first of the best-ranked rules of the message, judged by what the message's matches say, and that policy has the filters, backends, timeouts, retries and metadata of that very rule; it gets none exactly when no rule of the message applies.", "quantifier": "all accepted policy messages, all requests and server names, both HTTP versions", "why_tests_cant": "A conversion that swaps two fields or reorders rules shows only for messages where they differ.", "anchors": ["linkerd/proxy/client-policy/src/lib.rs: ClientPolicy::try_from", "linkerd/proxy/client-policy/src/http.rs", "linkerd/proxy/client-policy/src/grpc.rs", "linkerd/proxy/client-policy/src/tls.rs", "linkerd/http/route/src"]}
{"id": "C96", "title": "Which policy messages are accepted, and as what", "statement": "A policy message is accepted exactly if every required field is present and every value is in range, and then every field of the policy (parent, routes, hosts, matches, filters, distributions, weights, queues, load estimators with their defaults, timeouts with the older field as fallback, retries, failure accrual) is what the message says. A message with any bad part is refused as a whole.", "quantifier": "all policy messages", "why_tests_cant": "Completeness over all fields of a nested message is not covered by examples.", "anchors": ["linkerd/proxy/client-policy/src/lib.rs", "linkerd/proxy/client-policy/src/http.rs", "linkerd/proxy/client-policy/src/grpc.rs", "linkerd/proxy/client-policy/src/opaq.rs", "linkerd/proxy/client-policy/src/tls.rs"]}
{"id": "C97", "title": "The routers built from a policy send traffic to the backends of its routes", "statement": "The backends of a policy are exactly those of its routes, each once; the router that is built from it finds for each request the same rule as the policy, with the same filters and the same backends with the same weights, and has a service for every backend it may pick. (False that differing backends are kept apart: references that differ only in namespace, section or port are taken for one.)", "quantifier": "all accepted policies, all requests", "why_tests_cant": "A missing backend panics only when it is picked.", "anchors": ["linkerd/proxy/client-policy/src/lib.rs: fill_backends, Meta::eq", "linkerd/app/outbound/src/http/logical/policy/router.rs", "linkerd/app/outbound/src/opaq/logical/router.rs", "linkerd/app/outbound/src/tls/logical/router.rs", "linkerd/distribute/src/cache.rs"]}
{"id": "C98", "title": "Bad policies fail requests rather than the proxy", "statement": "A message that is refused is replaced by a policy that fails every HTTP request and connection with an error. Routers of an accepted policy are built without a panic exactly if each balancer's destination is a name and a port, each endpoint has a port other than 0, and weights of several backends are not all 0 and sum to less than 2^32. (False that every accepted message can be used: one with weights that are all 0 or a destination without a port panics.)", "quantifier": "all policy messages", "why_tests_cant": "The panic needs a message that the control plane does not usually send.", "anchors": ["linkerd/proxy/client-policy/src/lib.rs: ClientPolicy::invalid", "linkerd/app/outbound/src/policy/api.rs", "linkerd/app/outbound/src/http/logical/policy/router.rs", "linkerd/distribute/src/params.rs"]}
{"id": "C99", "title": "Success-rate thresholds keep their meaning", "statement": "A success-rate threshold of a policy becomes the nearest multiple of 0.01%, never more than 100%; one that already is such a multiple is kept; a success rate lower by 0.006% trips and one higher by 0.006% does not. (False that a positive threshold stays positive: one below 0.005% becomes 0, which disables tripping.)", "quantifier": "all floating-point numbers, all counts of successes and requests up to 10 times 2^32", "why_tests_cant": "Rounding of floating-point numbers has far too many cases to try.", "anchors": ["linkerd/proxy/client-policy/src/lib.rs: BasisPoints"]}
{"id": "C100", "title": "Peers are authenticated in both directions, and TLS is never given up", "statement": "A connection to an endpoint whose identity is known succeeds exactly if the peer proves possession of a certificate signed by the trust anchors that names that identity (DNS names without regard to case), and never falls back to plaintext; a server reports a client's identity exactly if the client asked for the server's own name and proved a signed certificate whose first readable name it is; a client that shows an untrusted certificate is refused; connections for other names or without TLS pass on untouched and unauthenticated. (False that a proxy is known by the identity its own certificate was checked for: any name passes that check, peers take the first.)", "quantifier": "all certificates, chains, server names, identities and behaviours of the peer in the handshake", "why_tests_cant": "Tests use a few certificates; the claim is about every certificate and every way a peer may behave.", "anchors": ["linkerd/meshtls/verifier/src/lib.rs", "linkerd/meshtls/src/client.rs", "linkerd/meshtls/src/server.rs", "linkerd/tls/src/client.rs", "linkerd/tls/src/server.rs: DetectTls"]}
{"id": "C101", "title": "Only good certificates are ever used, and a bad one changes nothing", "statement": "Every certificate used for clients or servers was signed by the trust anchors, named the proxy's identity and matched its key when it was given; a refused one changes only the error count; clients and servers differ by at most one update while it is published and agree after it, also servers with ALPN once their task has run; the proxy is ready only when both sides have a certificate and stays ready; before that every handshake with the proxy fails; metrics count successes and failures.", "quantifier": "all sequences of certificates and all interleavings of publication with observers and the ALPN task", "why_tests_cant": "The window between the two publications is a schedule that tests do not choose.", "anchors": ["linkerd/meshtls/src/creds.rs", "linkerd/meshtls/src/creds/store.rs: Store::set_certificate", "linkerd/meshtls/src/server.rs: spawn_with_alpn", "linkerd/identity/src/metrics.rs", "linkerd/app/src/identity.rs: NotifyReady"]}
{"id": "C102", "title": "Certificates are renewed in time", "statement": "After every attempt, failed or not, another follows after 70% of the remaining lifetime of the certificate, bounded by the configured least and greatest delay, and after the least delay if it has expired; failed attempts, expired and bad certificates keep the old one; if answers take less than 30% of the lifetime no certificate expires before it is replaced. (False for certificates with less than the least delay left; false that the loop survives any answer: an expiry too far in the future overflows and ends renewal by a panic.)", "quantifier": "all sequences of answers, times and delays", "why_tests_cant": "Real certificates last days; the claim is about every lifetime and every sequence of failures.", "anchors": ["linkerd/proxy/identity-client/src/certify.rs"]}
{"id": "C103", "title": "SPIRE updates are applied by identity", "statement": "The certificate set is always that of the last SVID with the proxy's identity in a received update; once the latest update is processed it is the one in use, if it has such an SVID; updates without one, or with unreadable ones, change nothing, and an unreadable SVID does not hide others. (False that every update is applied: one superseded before it is processed is lost even if its successor has no usable SVID.)", "quantifier": "all sequences of updates and all schedules of the consumer", "why_tests_cant": "Updates race with the consumer; tests process one at a time.", "anchors": ["linkerd/proxy/spire-client/src/api.rs", "linkerd/proxy/spire-client/src/lib.rs: consume_updates"]}
{"id": "C104", "title": "The gateway serves only what it is told to serve, and only for clients its own policy allows", "statement": "A request or an opaque connection is sent on exactly if an authenticated client named a target on a connection that negotiated the transport header; a configured suffix contains the name; the control plane has a profile of it and has a policy for it or says it knows none; and the inbound policy of the port the client connected to lets this client pass. The control plane is asked only about names that a suffix contains. Otherwise the answer tells which of these failed, errors of the profile first.", "quantifier": "all suffix lists, targets, answers of the control plane, policies, clients and requests", "why_tests_cant": "The answer depends on every combination of name, profile, policy, identity and route.", "anchors": ["linkerd/app/gateway/src/discover.rs", "linkerd/app/gateway/src/server.rs", "linkerd/app/gateway/src/http.rs", "linkerd/app/gateway/src/opaq.rs", "linkerd/app/inbound/src/direct.rs"]}
{"id": "C105", "title": "Requests do not loop through gateways", "statement": "A request is refused as a loop exactly if its client is the gateway itself or a forwarded header names the gateway as a forwarder; a request sent on names it; so however a request travels through gateways and through others that keep the values of forwarded, it passes no gateway twice. (False if an intermediary joins forwarded headers into one, which HTTP allows; false for gateways whose identity is a URI with an equals sign or a semicolon.)", "quantifier": "all requests, identities and itineraries", "why_tests_cant": "A loop spans several proxies; tests see one hop.", "anchors": ["linkerd/app/gateway/src/http/gateway.rs: HttpGateway::call, poll_ready, fwd_by"]}
{"id": "C106", "title": "What the gateway sends, and where to", "statement": "The gateway adds one last forwarded header naming itself, the client and the target, with HTTP/1 replaces host by the target, and changes no other header; requests follow the profile as it changes, to its service or its endpoint, and no outbound policy affects them; opaque connections follow a profile that splits traffic, else the policy of the control plane, else the endpoint of the profile, else fail. No request makes it panic. (False for opaque connections: if the policy for the target is not for opaque traffic, the proxy panics.)", "quantifier": "all requests, headers, profiles, policies and their histories", "why_tests_cant": "Header and route changes must hold for every request and every sequence of updates.", "anchors": ["linkerd/app/gateway/src/http/gateway.rs", "linkerd/app/gateway/src/http.rs: mk_routes", "linkerd/app/gateway/src/discover.rs", "linkerd/app/gateway/src/opaq.rs", "linkerd/app/outbound/src/opaq.rs"]}
{"id": "C107", "title": "Only local clients control the proxy through its admin port", "statement": "A request to the admin port changes the state of the proxy only if its client is on the loopback interface. Others who ask for the log level, for logs or for a shutdown get 403. A shutdown starts exactly with a POST to /shutdown of a local client, if that is enabled; the log level is, through any history of requests, the last one that a local client has PUT and that could be read. (False of the body as a whole: of a body in several frames only the first non-empty one counts.)", "quantifier": "all requests, clients, bodies, filters and histories of requests", "why_tests_cant": "Access control must hold for every client address, including IPv4 addresses in IPv6, and every request.", "anchors": ["linkerd/app/admin/src/server.rs", "linkerd/app/admin/src/server/log/level.rs", "linkerd/tracing/src/level.rs"]}
{"id": "C108", "title": "What the admin port tells, and to whom", "statement": "The proxy says it is ready exactly if every readiness latch ever made has been dropped, and from then on always. Metrics are compressed exactly if an accept-encoding has gzip in it; the environment is told exactly to a GET whose first accept takes JSON and whose query has no equals sign, as a whole or the variables asked for; unknown paths are 404. A request gets there only if the policy of the admin port lets it pass. (False: a client that refuses gzip with q=0 gets it; a second accept is not looked at; the environment is told to clients that are not local.)", "quantifier": "all requests, environments, policies and histories", "why_tests_cant": "Tests cover a few requests; these must hold for all header values, histories of latches and policies.", "anchors": ["linkerd/app/admin/src/server.rs", "linkerd/app/admin/src/server/readiness.rs", "linkerd/app/admin/src/server/json.rs", "linkerd/app/admin/src/stack.rs", "linkerd/metrics/src/serve.rs"]}
{"id": "C109", "title": "Traffic is accepted only with an identity and not after shutdown", "statement": "In every history of the process no application connection is accepted before the proxy's identity is certified; then each listener accepts until it has seen the shutdown, and none afterwards. The admin server serves from the first moment. The proxy says it is ready only once certified. (False with SPIRE: if the workload API cannot be reached at the start, the proxy says it is ready, though it will never have an identity or accept a connection. False that nothing is accepted after the shutdown began.)", "quantifier": "all interleavings of certification, start, connections, panics and shutdown", "why_tests_cant": "Startup and shutdown race with each other; a test sees one order.", "anchors": ["linkerd/app/src/lib.rs: Config::build, App::spawn", "linkerd/app/src/identity.rs: Identity::ready", "linkerd/app/core/src/serve.rs: serve", "linkerd/proxy/spire-client/src/lib.rs: Spire::run", "linkerd/app/src/spire.rs"]}
{"id": "C110", "title": "The process ends gracefully, or after its grace period", "statement": "The process ends only if asked to, by a signal or through the admin port; gracefully only once every accepted connection, and every tunnel one became by an upgrade, is closed; otherwise exactly when the grace period is over, never later. With a certified identity it can, at any moment after being asked, end as soon as its connections are closed. (False of connections to the tap, which are cut; false before the identity is certified: the process then always takes the whole grace period, even with no connection.)", "quantifier": "all histories of connections, upgrades, closings, certification and time", "why_tests_cant": "When the process ends depends on every connection's history and on time.", "anchors": ["linkerd2-proxy/src/main.rs: main", "linkerd/app/core/src/serve.rs", "linkerd/proxy/http/src/server.rs: ServeHttp::call", "linkerd/http/upgrade/src/upgrade.rs: Drop for Inner", "linkerd/app/inbound/src/server.rs: push_tcp_forward"]}
{"id": "C111", "title": "A tap selects exactly the requests that were asked for", "statement": "A request to tap is accepted exactly if each part is right (ports in order, prefix lengths that fit, labels not empty, schemes and methods that exist) and it has a limit; a request through the proxy is then selected exactly if it is what was described, for every nesting of all, any and not over ports, networks, labels, scheme, method, authority and path. (False: a conjunction of empty parts selects everything; networks of prefix length 0 cannot be asked for; the scheme HTTP in capitals is accepted but does not select http.)", "quantifier": "all messages of any nesting and all requests", "why_tests_cant": "Messages nest without bound, and range over all texts, ports and addresses.", "anchors": ["linkerd/proxy/tap/src/grpc/match_.rs: Match", "linkerd/proxy/tap/src/grpc/server.rs: Server::observe", "linkerd/proxy/tap/src/lib.rs: Inspect"]}
{"id": "C112", "title": "A tap reports the first requests it selects, completely and in order", "statement": "In every interleaving of requests, responses, bodies, polls and cancellations a tap yields events of at most its limit of requests, which are the first it selects; of each the request, then at most one response, then at most one end. If its client keeps up (always, for limits up to 132) all is reported, with the gRPC status of the trailers, else of the headers, or the reset code; headers only if asked for. The stream ends exactly when the limit is reached, nothing more can be said and all was yielded. (False: a request whose client gives up has no end; a body given up looks complete; a full channel uses up the limit without a report.)", "quantifier": "all histories of a tap and all limits", "why_tests_cant": "Taps race with requests, responses and their own client.", "anchors": ["linkerd/proxy/tap/src/grpc/server.rs: ResponseStream, Tap, TapResponse, TapResponsePayload", "linkerd/proxy/tap/src/service.rs: TapHttp, Body"]}
{"id": "C113", "title": "Every tap sees every request, and only the permitted client taps", "statement": "Whatever taps begin, end and are cleaned away, each request is offered to every tap that can still count one and does not change what other taps report. A client is let in exactly if it has proved by its certificate that it has the permitted identity. (False: cleaning the registry does not change what services see.)", "quantifier": "all histories of taps and all peers", "why_tests_cant": "Depends on all histories of registration and cleaning, and on all certificates.", "anchors": ["linkerd/proxy/tap/src/registry.rs: Registry", "linkerd/proxy/tap/src/service.rs: TapHttp::call", "linkerd/proxy/tap/src/accept.rs: AcceptPermittedClients", "linkerd/app/src/tap.rs"]}
{"id": "C114", "title": "The application learns from the proxy exactly the identity that its client has proved", "statement": "Whatever headers a client sends, over HTTP/1 or HTTP/2, upgraded or not, a request that reaches the application carries as l5d-client-id exactly the identity that the client was authenticated with by mutual TLS, once, and no such header if it was not authenticated; DNS identities are always told. Other headers that neither the proxy nor the policy writes arrive unchanged, and those of an HTTP/1 connection do not arrive. (False: the header cannot be made to arrive as one of the connection.)", "quantifier": "all requests, connections, certificates and policies whose filters leave that header alone", "why_tests_cant": "Depends on all header lists a client can forge, and on the composition of upgrade handling, tracing, downgrading and policy filters.", "anchors": ["linkerd/app/inbound/src/http/set_identity_header.rs: NewSetIdentityHeader, SetIdentityHeader", "linkerd/app/inbound/src/http/server.rs: push_http_server", "linkerd/http/upgrade/src/upgrade.rs: Service::call"]}
{"id": "C115", "title": "An inbound request reaches only the application, and only as the policy allows", "statement": "A request is sent only to the address that its connection was made to, with its own method, path and query, and only if the policy's route for it authorizes the client; otherwise it gets the policy's verdict. Without tracing no request but CONNECT makes its task panic. A profile is looked up exactly for the name that the request is for, if that is under an allowed suffix. It is sent with the version it had originally. The application takes it to be for the host that the policy took it to be for, unless it claims to have been upgraded by another proxy. (False: that host is the same for every request; the lookup's name can be chosen by authenticated clients only.)", "quantifier": "all requests, connections, policies, suffixes and answers of the external parsers", "why_tests_cant": "Depends on all requests, including those that no well-behaved client sends, and on the composition of all the layers.", "anchors": ["linkerd/app/inbound/src/http/router.rs: push_http_router, LogicalPerRequest::select", "linkerd/app/inbound/src/http/server.rs: push_http_server", "linkerd/app/inbound/src/policy/http.rs: HttpPolicyService", "linkerd/proxy/http/src/orig_proto.rs: Downgrade", "linkerd/proxy/http/src/h1.rs: Client"]}
{"id": "C116", "title": "An outbound request takes the way that the policy's route for it says", "statement": "A request that no rule of the policy applies to is not sent anywhere. Any other takes the first best rule: in every attempt, starting from the same headers, the rule's filters come first, in their order, then a choice among the rule's backends, then that backend's own filters; the backend gets exactly the headers that result. Responses pass the filters' changes in the reverse nesting, keeping status and body, and the client gets what the last attempt came to. A backend that is sent a request is one of the rule's, has weight, and was ready; load is shed only if there is none such. A filter that refuses ends the attempt, and nothing is sent. Failures are injected for exactly their share of the drawn numbers.", "quantifier": "all policies that can be built, requests, random draws, readiness of backends and answers", "why_tests_cant": "Depends on every combination of rules, filters, weights, draws and readiness, in the composition of the layers.", "anchors": ["linkerd/app/outbound/src/http/logical/policy/router.rs: Params::layer", "linkerd/app/outbound/src/http/logical/policy/route.rs: MatchedRoute::layer", "linkerd/app/outbound/src/http/logical/policy/route/backend.rs: MatchedBackend::layer", "linkerd/app/outbound/src/http/logical/policy/route/filters.rs: apply_http_request, apply_http_response", "linkerd/http/route/src/http/filter/inject_failure.rs"]}
{"id": "C117", "title": "An outbound request is retried only as its route allows", "statement": "A request is attempted once, and then again at most as often as the policy of its route, or the headers that the route lets override it, says; only after an answer of a backend that the policy wants retried, never after a filter's refusal or when load was shed; and if the last answer calls for a retry then the limit was reached or the body could not be sent again. The count of retries in the metrics is the number of further attempts. (False: a client whose retry finds no ready backend gets the answer that its request had before.)", "quantifier": "all policies, requests, bodies and sequences of answers", "why_tests_cant": "Depends on every sequence of answers, and on the layers below the retries.", "anchors": ["linkerd/app/outbound/src/http/logical/policy/route.rs: MatchedRoute::layer", "linkerd/app/outbound/src/http/logical/policy/route/retry.rs: RetryPolicy", "linkerd/http/retry/src/lib.rs: HttpRetry"]}
{"id": "C118", "title": "Metrics label a stream by its response and by what ended it", "statement": "The labels of an HTTP stream are the status of its response (for gRPC the code of its trailers or else of its headers) and the kind of error that ended it. The kind of error is that of the cause that is most telling, by a fixed order, whatever wraps it; a filter's answer is a status and not an error. The name of the host is shown exactly if the route exports it and it is a DNS name. Different labels are different text, for HTTP. (False: a gRPC code in the headers survives trailers without one; different labels are different text for outbound gRPC: streams without a code and with UNKNOWN make two series with the same labels.)", "quantifier": "all errors with any causes in any order, all responses, headers, trailers and endings, all hosts", "why_tests_cant": "Tests look at a few errors; an error may have any causes in any order, and the labels of two series can collide only for some pairs.", "anchors": ["linkerd/app/outbound/src/http/logical/policy/route/metrics/labels.rs: Error::new_or_status, HttpRsp, GrpcRsp", "linkerd/app/outbound/src/http/logical/policy/route/metrics.rs: LabelHttpRsp, LabelGrpcRsp", "linkerd/http/prom/src/stream_label/status.rs: LabelHttpStatus, LabelGrpcStatus", "linkerd/app/inbound/src/http/router/metrics/status.rs: LabelStatus"]}
{"id": "C119", "title": "Every stream that ends is counted once, as it ended first", "statement": "In any history of streams that are called, sent, answered, polled and dropped in any order, each counter of statuses is the number of streams that ended with its labels; each stream that ended has one observation of its duration, from its call to its first end, and one of its response's, from when its request was flushed (nothing if it was not); the counter of requests is the number of requests; every frame of data is observed; and a body reports its end exactly if it has ended. (False: a request that its client abandons before the response has a status.)", "quantifier": "all histories of any number of streams, interleaved in any way, and all stacks of the layers", "why_tests_cant": "A stream may end in many ways and be polled or dropped again after that, beneath several layers that see each other's ends.", "anchors": ["linkerd/http/prom/src/status.rs: RecordStatusFuture", "linkerd/http/prom/src/record_response.rs: ResponseFuture, ResponseBody, end_stream", "linkerd/http/prom/src/record_response/response.rs: RequestBody", "linkerd/http/body-eos/src/lib.rs: BodyWithEosFn", "linkerd/http/prom/src/count_reqs.rs: CountRequests", "linkerd/http/prom/src/body_data/body.rs: Body"]}
{"id": "C120", "title": "An outbound connection that is not HTTP takes the way that the policy's route for it says", "statement": "A connection that no route applies to, or that should name its server and does not do so in time, is refused and reaches no backend. Any other is refused with the reason that the first filter of its route gives; else it is shed if and only if no backend of positive weight is ready; else one that is ready is chosen as the policy says, and it is refused by that backend's first filter or failing dispatcher or goes to that backend. The routes are those in force when the connection came, whatever comes later, and the server is told of every end with the names of the balancer, the route and the router, in this order.", "quantifier": "all policies that can be built, first bytes of connections, readiness of backends and draws; all histories of updates, connections and their ends", "why_tests_cant": "Depends on every combination of routes, filters, weights, readiness and draws, and on updates between connections.", "anchors": ["linkerd/app/outbound/src/opaq/logical/router.rs: Params::layer", "linkerd/app/outbound/src/opaq/logical/route.rs: MatchedRoute::layer", "linkerd/app/outbound/src/opaq/logical/route/filters.rs: apply", "linkerd/app/outbound/src/opaq/concrete.rs: push_opaq_concrete", "linkerd/app/outbound/src/tls/logical/router.rs: Params::layer", "linkerd/app/outbound/src/tls/logical/route.rs: MatchedRoute::layer", "linkerd/tls/src/server/required_sni.rs: DetectSniFuture", "linkerd/stack/src/loadshed.rs: LoadShed"]}
{"id": "C121", "title": "Every connection is counted when it has a route and when it ends", "statement": "In any history of updates and connections, the counter of opened connections of each series is the number of those that came with its labels, and that of closed ones is, for each kind of error and for none, the number that ended so; each connection that was opened was closed for exactly one reason, or goes on, or was dropped. Different series have different text.", "quantifier": "all histories of updates, connections and their ends, in any order, and all pairs of labels", "why_tests_cant": "Connections end in any order and after any updates; two series have the same text only for some pairs of labels.", "anchors": ["linkerd/app/outbound/src/metrics/transport.rs: TransportRouteMetricsFamily, TransportRouteMetricsService, ConnectionClosed", "linkerd/app/outbound/src/opaq/logical/route.rs: RouteLabels::encode", "linkerd/app/outbound/src/tls/logical/route.rs: RouteLabels::encode", "linkerd/app/outbound/src/metrics.rs: prom_labels", "linkerd/proxy/client-policy/src/lib.rs: Meta"]}
{"id": "C122", "title": "Errors are counted by the outermost cause that is known", "statement": "The kind under which a connection's error is counted is that of the outermost of its causes that the counter knows, and 'unexpected' if there is none; on the inbound side refusals by policy are not counted here. For each destination and kind the counter is the number of connections that failed so. Different kinds have different text.", "quantifier": "all errors with any causes in any order; all histories", "why_tests_cant": "Tests look at a few errors; an error may be wrapped in any others, in any order.", "anchors": ["linkerd/app/outbound/src/metrics/error.rs: ErrorKind::mk", "linkerd/app/outbound/src/metrics/error/tcp.rs: MonitorTcp", "linkerd/app/inbound/src/metrics/error.rs: ErrorKind::mk", "linkerd/stack/src/monitor.rs: Monitor"]}
{"id": "C123", "title": "The page of the proxy's own metrics can be read, and has what was counted", "statement": "The text that the proxy writes for its request, retry, connection, control, trace and stack metrics is in the format that scrapers read: each family has one help and one kind line and then its series, and the series that are read from it are exactly those counted, each with its labels and its value (counts up to 2^53, latencies as cumulative buckets, a count and a sum).", "quantifier": "all contents of all registries: all endpoints, routes, policies, identities, labels, statuses, classes and error codes", "why_tests_cant": "The text depends on strings that come from the control plane and from the network; tests look at a few well-formed ones.", "anchors": ["linkerd/metrics/src/fmt.rs: FmtLabels, Metric::fmt_help", "linkerd/metrics/src/counter.rs: fmt_metric_labeled", "linkerd/metrics/src/histogram.rs: fmt_metric_labeled", "linkerd/http/metrics/src/requests/report.rs: fmt_metrics", "linkerd/http/metrics/src/retries.rs: fmt_metrics", "linkerd/transport-metrics/src/report.rs: fmt_metrics", "linkerd/stack/metrics/src/lib.rs: fmt_metrics", "linkerd/opentelemetry/src/metrics.rs: fmt_metrics", "linkerd/app/core/src/metrics.rs: Metrics::new, prefix_labels", "linkerd/app/core/src/transport/labels.rs: Key"]}
{"id": "C124", "title": "No series of the proxy's own metrics is on the page twice", "statement": "Different keys of the registries have different text, so that no series is on the page twice, with two values.", "quantifier": "all contents of all registries whose keys differ", "why_tests_cant": "Whether two keys have one text depends on the pair; tests do not look at pairs.", "anchors": ["linkerd/app/core/src/metrics.rs: EndpointLabels, OutboundEndpointLabels, ProfileRouteLabels, ControlLabels, Class", "linkerd/app/core/src/transport/labels.rs: Key", "linkerd/addr/src/lib.rs: Display for NameAddr", "linkerd/identity/src/lib.rs: Display for Id"]}
{"id": "C125", "title": "A service that follows a watch uses its last value", "statement": "The stacks that are rebuilt when a profile, a policy or a route changes use, from the next time they are polled, what was made from the last value, as soon as the background task is done; they never go back to an older one, do not change between a poll and the request that follows it, and a clone starts with what its original uses.", "quantifier": "all histories of updates, of the end of the source, of steps of the task, and of polls, clones and drops of the service", "why_tests_cant": "What a clone uses depends on the interleaving of updates, task and polls; tests run one schedule, without clones that lag behind.", "anchors": ["linkerd/stack/src/watch.rs: NewSpawnWatch::new_service, SpawnWatch::poll_ready"]}
{"id": "C126", "title": "A service that does not become ready is passed by after the timeout", "statement": "When the primary service has been found pending by every poll for as long as the timeout, requests go to the secondary; they go back to the primary at the first poll that finds it ready; and a request after a poll that says ready does not panic.", "quantifier": "all timeouts and all histories of polls, with any answers of both services at any times", "why_tests_cant": "It is about every sequence of answers and times; tests have three.", "anchors": ["linkerd/stack/src/switch_ready.rs: SwitchReady::poll_ready, call"]}
{"id": "C127", "title": "The counters of stacks are the numbers of their services, polls and pending time", "statement": "The counters of a stack are the numbers of the services that were created and of those of which no clone is left, the numbers of the polls by their answer, and the time between a poll that found a service pending and its next poll.", "quantifier": "all histories of creation, cloning, polls and drops, also of drops at the same time", "why_tests_cant": "Drops at the same time, and sums of rounded times, are not met by tests.", "anchors": ["linkerd/stack/metrics/src/service.rs: TrackService", "linkerd/stack/metrics/src/layer.rs: TrackServiceLayer", "linkerd/stack/metrics/src/lib.rs: Metrics"]}
{"id": "C128", "title": "Spans are sent in order, in batches of bounded size and without delay", "statement": "The spans that the proxy records are sent to the collector in the order in which they were recorded, each once, in batches that are not empty and have no more than a thousand spans, and a batch is closed at the latest ten seconds after a span of it came; a collector that is slow makes at most two batches wait.", "quantifier": "all histories of spans, of ticks, and of answers of the collector, at any times", "why_tests_cant": "When a batch is closed depends on the interleaving of arrivals, ticks and answers; tests have none of them.", "anchors": ["linkerd/opentelemetry/src/lib.rs: SpanExporter::run, export, collect_batch"]}
{"id": "C129", "title": "A recorded span is sent with what was recorded", "statement": "A span is sent to the collector with the ids, the name, the times, the kind and the labels with which it was recorded, exactly when its ids have the lengths of the protocol, and the counters of the exporter count what was sent.", "quantifier": "all spans, and all headers of requests that are sampled", "why_tests_cant": "It is about ids of every length in the headers of any client.", "anchors": ["linkerd/opentelemetry/src/lib.rs: convert_span", "linkerd/opentelemetry/src/metrics.rs: Registry", "linkerd/trace-context/src/service.rs: TraceContext::call"]}
{"id": "C130", "title": "A failed service is made again after a backoff, and only then", "statement": "When the connection to a control plane or to a TCP endpoint fails, it is made again after a wait, never at once; the waits grow as those of one backoff until the service is ready; an error is returned only if there is no recovery from it; and a request after a poll that says ready goes to the service that was made last.", "quantifier": "all histories of polls with any answers of the services and of the backoffs", "why_tests_cant": "It is about every sequence of failures and recoveries; tests have one.", "anchors": ["linkerd/reconnect/src/lib.rs: Reconnect::poll_ready, call"]}
{"id": "C131", "title": "The access log has one line for each response", "statement": "With the access log on, the log has, for each response that was made and in their order, one line from which the fields of the request and of the response can be read back; with it off, nothing is written.", "quantifier": "all histories of requests and responses, all headers", "why_tests_cant": "The text of a line is under the control of clients; a test has one request.", "anchors": ["linkerd/http/access-log/src/lib.rs: AccessLogContext, ResponseFuture", "linkerd/tracing/src/access_log.rs: Writer"]}
{"id": "C132", "title": "A JSON access log says what was requested", "statement": "A line of the JSON access log has the fields of the request with the values that the request has, the fields of the response once it is there, and its processing time is no more than its total time.", "quantifier": "all requests and responses, all headers, all times", "why_tests_cant": "It is about every subset of headers and about values that are not text.", "anchors": ["linkerd/http/access-log/src/lib.rs: AccessLogContext, ResponseFuture", "linkerd/tracing/src/access_log.rs"]}
{"id": "C133", "title": "Discoveries are shared, and kept while they are used", "statement": "Connections to the same address share one discovery while any of them is there, each is served by what was discovered for its own address, and a discovery is forgotten, and made again, only after no connection has used it for the idle timeout.", "quantifier": "all histories of connections, answers, drops and evictions, at any times", "why_tests_cant": "It depends on the interleaving of connections, answers and timers.", "anchors": ["linkerd/app/core/src/disco_cache.rs: NewCachedDiscover, CachedDiscoverFuture, NewDiscoverThunk"]}
{"id": "C134", "title": "The proxy runs on as many threads as it is told, and no more than there are cores", "statement": "The number of worker threads is the maximum that is set, or the ratio of the cores, or one, raised to the minimum that is set, and never above the number of cores nor below one; values that are not valid count as not set.", "quantifier": "all environments, all numbers of cores", "why_tests_cant": "A test has a few combinations; the claim is about all texts of four variables.", "anchors": ["linkerd2-proxy/src/rt.rs: build", "linkerd/workers/src/lib.rs: Workers::cores"]}
{"id": "C135", "title": "A request goes through the proxy of its route", "statement": "A request to a router of a profile goes through the proxy that was made for the first route that matches it, of the profile that was there when the router was last ready; directly, if no route matches; it never panics. Proxies are there exactly for the routes in use, and a route keeps its proxy while it is in the profile.", "quantifier": "all histories of updates and polls, all profiles, all matchers, all requests", "why_tests_cant": "It depends on the interleaving of updates of the profile with polls of the service.", "anchors": ["linkerd/service-profiles/src/http/proxy.rs: NewProxyRouter, ProxyRouter", "linkerd/service-profiles/src/http.rs: route_for_request, Route, Labels"]}
{"id": "C136", "title": "Inbound connections are accepted by their original destination", "statement": "Every connection that a listener gives before the shutdown is accepted once, in order, with its client (an IPv4 client is the same on a listener of IPv6) and its original destination, whatever fails between. It is refused exactly if allowed addresses are set and its destination is not one of them; of the others those to the proxy's port are direct and the rest goes on with the policy of its destination. Each connection that fails counts once, by the kind of its error and its destination, unless a policy refused it.", "quantifier": "all histories of what listeners give, of ends of connections and of the shutdown; all addresses and sets of addresses; all errors with all their sources", "why_tests_cant": "It is about errors of the system at any point, and about all addresses.", "anchors": ["linkerd/proxy/transport/src/listen.rs: BindTcp", "linkerd/proxy/transport/src/listen/dual_bind.rs: DualBind", "linkerd/proxy/transport/src/orig_dst.rs: orig_dst", "linkerd/app/core/src/serve.rs: serve", "linkerd/app/core/src/transport/allow_ips.rs: AllowIps", "linkerd/app/inbound/src/accept.rs: push_accept", "linkerd/app/inbound/src/metrics/error.rs: ErrorKind::mk", "linkerd/app/inbound/src/metrics/error/tcp.rs: TcpErrorMetrics"]}
{"id": "C137", "title": "Connections to servers are made in time, and not to the proxy itself", "statement": "A connection to a server is made, or fails, within the limit that is set, which is for TCP, TLS and the transport header together; it fails with a timeout exactly if it was not made by then. The outbound proxy makes none on the loopback interface, and the inbound proxy none to its own port.", "quantifier": "all addresses, all limits, all times that the parts of a connection take, and parts that never end", "why_tests_cant": "The parts may take any time, and the addresses are any that a controller can send.", "anchors": ["linkerd/app/outbound/src/tcp/connect.rs: PreventLoopback", "linkerd/app/outbound/src/tcp/endpoint.rs: push_tcp_endpoint", "linkerd/app/inbound/src/server.rs: into_tcp_connect", "linkerd/stack/src/timeout.rs: Timeout", "linkerd/app/core/src/svc.rs: push_connect_timeout"]}
{"id": "C138", "title": "The policy's load configures the balancer", "statement": "The balancer of a backend estimates loads with penalties exactly if its policy has them. An endpoint that is new has an estimate of the policy's round trip time, and at least a millisecond; a failing response raises the estimate of its endpoint to the policy's penalty; and that fades as the policy says.", "quantifier": "all policies that are accepted, all histories of requests and responses of an endpoint, at all times", "why_tests_cant": "It is about all durations of a policy, and about all histories of an endpoint.", "anchors": ["linkerd/proxy/balance/src/lib.rs: penalty_biaser_config, NewPeakEwma", "linkerd/proxy/http/src/balance.rs: NewBalance", "linkerd/app/outbound/src/http/concrete/balance.rs: Balance", "linkerd/proxy/client-policy/src/lib.rs: Load"]}
{"id": "C139", "title": "Bytes are counted by zone", "statement": "For each connection of the outbound proxy to an endpoint, the bytes that are read and written are added, once each, to the counters of the series for its zone: same or other, by the zone of the proxy and the endpoint's, or unknown when either is not known. A series counts the bytes of all its connections together.", "quantifier": "all sets of connections with any zones, and all orders of their reads and writes, also partial or failed ones", "why_tests_cant": "Any number of connections may share a counter, with their reads and writes in any order.", "anchors": ["linkerd/transport-metrics/src/zone.rs", "linkerd/transport-metrics/src/zone/client.rs", "linkerd/transport-metrics/src/zone/sensor.rs", "linkerd/app/outbound/src/zone.rs: TcpZoneLabels", "linkerd/app/core/src/metrics.rs: OutboundZoneLocality"]}
{"id": "C140", "title": "A service is kept while it serves a request", "statement": "While a request is being served, up to the end of the body of its response, other requests for the same target get the same service, however long it takes and whatever the idle timeout is. When no request for a target is being served, its service goes away after the idle timeout, and a later request gets a new one. A service serves only requests for its target.", "quantifier": "all orders of requests, responses, failures and cancellations for all targets, with all times, and all schedules of the tasks that evict services", "why_tests_cant": "It is about races of evictions with requests and with responses whose bodies are still being read.", "anchors": ["linkerd/http/retain/src/lib.rs: Retain, RetainBody", "linkerd/idle-cache/src/new_service.rs: NewIdleCached", "linkerd/idle-cache/src/lib.rs: IdleCache", "linkerd/router/src/lib.rs: OneshotRoute", "linkerd/app/inbound/src/http/router.rs"]}
{"id": "C141", "title": "Endpoints break as the policy says", "statement": "An endpoint is closed, tried and opened again by the failure accrual of the policy for the version of HTTP that the client speaks: by its number of failures, or its success rate, window and number of requests, and with its backoff. Without failure accrual, or if the policy was refused, no request is ever held back at an endpoint.", "quantifier": "all messages of policies, and all orders of requests, responses, cancellations and times at an endpoint", "why_tests_cant": "It is about all messages, and all histories of an endpoint.", "anchors": ["linkerd/app/outbound/src/http/breaker.rs: Params", "linkerd/app/outbound/src/sidecar.rs: mk_policy_routes", "linkerd/app/outbound/src/ingress.rs: policy_routes", "linkerd/app/outbound/src/http/concrete/balance.rs: Balance", "linkerd/proxy/client-policy/src/lib.rs: FailureAccrual"]}
{"id": "C142", "title": "What spans say of a request", "statement": "A span says the method, scheme, path, query and URL of a request, its server's address and port by the host headers, four headers and the status of the response, each once, and the URL and the address without credentials. No other header and nothing of the credentials shows in it. A request whose trace is sampled gets at most one span, when it is answered, with the times of the request and the response; if a hundred spans wait or the collector is gone, the span is dropped, and no request waits for it.", "quantifier": "all requests, with all URLs, headers and credentials; all histories of requests, responses, failures and of the exporter", "why_tests_cant": "Which texts leak depends on every form of authority; what is dropped depends on the order of responses and of the exporter's reads.", "anchors": ["linkerd/trace-context/src/service.rs: TraceContext, UrlLabel", "linkerd/app/core/src/http_tracing.rs: SpanConverter", "linkerd/app/src/trace_collector/otel_collector.rs: create_collector", "linkerd/app/src/trace_collector.rs: SPAN_BUFFER_CAPACITY"]}
{"id": "C143", "title": "Connections, requests and updates of a policy do not deadlock", "statement": "Threads that accept connections, check them again, authorize requests and update an inbound policy never wait for each other forever: as long as one of them has something left to do, one can go on.", "quantifier": "all numbers of threads, all sequences of connections, requests and updates on them, and all interleavings", "why_tests_cant": "A deadlock needs an update between two reads of one thread, microseconds apart.", "anchors": ["linkerd/app/inbound/src/policy.rs: AllowPolicy", "linkerd/app/inbound/src/policy/tcp.rs: TcpPolicy", "linkerd/app/inbound/src/policy/http.rs: HttpPolicyService::check_rate_limit", "linkerd/tonic-watch/src/lib.rs: StreamWatch"]}
{"id": "C144", "title": "The counters of authorizations", "statement": "Every connection that an inbound policy decides on is counted once, as allowed or as denied, and once more if a change of the policy terminates it; every request is counted once, as allowed, denied or without a route, as its answer is, and once more if it is over the rate limit. It is counted under the client's TLS, the address it wanted, its route, the first authorization that applies, and the name of the policy that decided. Each series is the number of those counts, and never decreases.", "quantifier": "all policies, with all routes, authorizations and names; all numbers of connections and requests; all interleavings of their steps with each other and with updates of the policy", "why_tests_cant": "A count is made in a later step than the check that it is about; tests do not change the policy between the two.", "anchors": ["linkerd/app/inbound/src/metrics/authz.rs: HttpAuthzMetrics, TcpAuthzMetrics, Key", "linkerd/app/inbound/src/policy/tcp.rs: NewTcpPolicy, TcpPolicy", "linkerd/app/inbound/src/policy/http.rs: HttpPolicyService", "linkerd/app/inbound/src/policy.rs: AllowPolicy", "linkerd/proxy/server-policy/src/meta.rs: Meta"]}
{"id": "C145", "title": "Log streams", "statement": "A client that asks the admin server for a stream of logs gets, from then on and in order, every line that passes its filter, but for lines lost because 512 wait already; each loss is counted, and reported to the client. Streams do not affect each other, hold a bounded number of lines, and once a client has gone its stream is given up and costs nothing.", "quantifier": "all numbers of streams, filters, and histories of streams started, lines logged, tasks run, frames read and clients gone away, in any order; all contents of lines", "why_tests_cant": "Streams share a slab of writers whose keys are used again, a list of weak filters and a filter for all; tests run one stream whose reader keeps up.", "anchors": ["linkerd/tracing/src/stream.rs: StreamHandle, Reader, WriterLayer, StreamFilter, Tx, Line", "linkerd/app/admin/src/server/log/stream.rs: serve"]}
{"id": "C146", "title": "Settings of HTTP/2 connections", "statement": "Each setting of a connection of HTTP/2 (windows, pings, frame size, buffers, limits) is what was discovered for the endpoint or configured for the server, or else the proxy's own, or else the library's; settings that the proxy accepts can be used, and a limit of the library is in force unless configuration says otherwise.", "quantifier": "all configurations, environments, discovered settings and library defaults", "why_tests_cant": "Tests check parsing of settings, and that connections work with one set of them; which combination of discovered, configured and default values reaches the library, for every combination, they do not.", "anchors": ["linkerd/proxy/http/src/h2.rs: Connect::call", "linkerd/proxy/http/src/server.rs: NewServeHttp::new_service", "linkerd/http/h2/src/lib.rs: ClientParams::override_from", "linkerd/app/src/env/http2.rs: parse_server"]}
{"id": "C147", "title": "Clients of the control plane", "statement": "The proxy talks to a part of the control plane only at the address it was given or at those that DNS has for the name it was given; without TLS only on its own host, and else only with a server that proves to have the configured name, whatever DNS answers. Its requests keep their paths and carry the control plane's authority. An accepted configuration can connect, and requests wait in the queue as it is configured.", "quantifier": "all environments, answers of DNS, peers, certificates and times; all requests", "why_tests_cant": "Tests connect to a local server without TLS; that no answer of DNS and no peer leads to a connection that is neither local nor authenticated is a claim about all of them.", "anchors": ["linkerd/app/core/src/control.rs: Config::build, AddOrigin, IntoTarget, Target, Param<queue::Capacity>", "linkerd/app/src/env.rs: parse_control_addr", "linkerd/proxy/dns-resolve/src/lib.rs: DnsResolve", "linkerd/tls/src/client.rs: Client", "linkerd/addr/src/lib.rs: Addr::to_http_authority"]}
{"id": "C148", "title": "How many requests are served at a time, and which failures are counted", "statement": "A proxy serves no more requests at a time than it is configured to, over all connections; one that comes when there is no room is answered at once with 503, and each that ends, fails or is dropped makes room for another. Every request is answered at most once, as its result calls for. Each counter of errors has as many requests as failed so; what policies do on purpose is not counted as an error, and timeouts are counted as such.", "quantifier": "all histories of requests that come, end, fail and are dropped, in any order; all limits; all errors with any causes", "why_tests_cant": "Tests fill a limit of one; that permits are neither lost nor made, and that counters and answers agree, is about every interleaving of requests and failures.", "anchors": ["linkerd/stack/src/loadshed.rs: LoadShed", "linkerd/stack/src/monitor.rs: Monitor", "linkerd/app/inbound/src/http/server.rs: push_http_server, ServerError", "linkerd/app/outbound/src/http/server.rs: push_http_server", "linkerd/app/inbound/src/metrics/error.rs: ErrorKind::mk", "linkerd/app/inbound/src/metrics/error/http.rs: MonitorHttpErrorMetrics", "linkerd/app/outbound/src/metrics/error/http.rs: Http"]}
{"id": "C149", "title": "Which service a request is said to be for, from proxy to proxy", "statement": "A request that the proxy routes by a service profile tells the next proxy, exactly once and whatever the application wrote, the name and port of that service, and the next proxy asks its control plane about that service and no other; where the endpoint requires an authority, it asks about that. In ingress mode the header by which an application selects a service is read, and never passed on. Applications cannot make the next proxy take a request for one to another service.", "quantifier": "all requests of applications over HTTP/1 and HTTP/2 with any headers, also of their connections; all services, policies and settings of the next proxy; all clients by which it is sent", "why_tests_cant": "Tests send a few requests through one proxy; what the second concludes from every header list that the first lets through is a statement about their composition.", "anchors": ["linkerd/proxy/http/src/header_from_target.rs: HeaderFromTarget", "linkerd/proxy/http/src/strip_header.rs: StripHeader", "linkerd/app/outbound/src/http/logical/profile.rs: RouteParams::layer", "linkerd/app/outbound/src/http/logical.rs: CanonicalDstHeader", "linkerd/app/outbound/src/ingress.rs: push_http_ingress, SelectTarget", "linkerd/http/override-authority/src/lib.rs: OverrideAuthority", "linkerd/app/inbound/src/http/router.rs: LogicalPerRequest"]}
{"id": "C150", "title": "What the proxy logs, in which format, and when lines say they were written", "statement": "The proxy logs to standard output unless its level is `off`, with the configured filter, as JSON or as text as configured, and keeps the access log out of it; there is an access log whenever a valid format of it is configured. Each line of text says exactly, to the microsecond, how long after the start of the process it was written, and lines sorted as texts are in the order of time.", "quantifier": "all values of the environment variables; all start times and times of lines, without bound", "why_tests_cant": "Tests format four durations; that no two times read alike, and that the order of texts is that of times, is about all of them.", "anchors": ["linkerd/tracing/src/lib.rs: Settings::from_env, Settings::init, Settings::build", "linkerd/tracing/src/uptime.rs: Uptime::format", "linkerd/tracing/src/access_log.rs: TRACE_TARGET"]}
{"id": "C151", "title": "What applications see of resets of connections to peers", "statement": "When the HTTP/2 connection of a request to a peer fails, the application that sent the request sees what its own protocol can say: one that speaks HTTP/2 has its stream reset with the server's reason, also through two proxies and in the middle of a gRPC response; one that speaks HTTP/1, whose request was upgraded, is answered with 502 and the reason, and never sees an error of HTTP/2. Failures of input and output are answered with 502 and those to connect in time with 504.", "quantifier": "all chains of errors with any sources, of any depth, wrapped by any layers; all reasons; all requests and protocols; both settings of headers", "why_tests_cant": "Tests wrap an error once or twice; the answer depends on the whole chain of sources, and on both proxies' rescues in order.", "anchors": ["linkerd/proxy/http/src/orig_proto.rs: downgrade_h2_error, Error::h2, UpgradeResponseBody::poll_frame", "linkerd/proxy/http/src/client.rs: Client::call", "linkerd/app/outbound/src/http/endpoint.rs: ClientRescue", "linkerd/app/outbound/src/http/server.rs: ServerRescue", "linkerd/app/inbound/src/http/server.rs: ServerRescue", "linkerd/app/core/src/errors/body.rs: ResponseBody::poll_frame"]}
{"id": "C152", "title": "Services that are built when they are first used", "statement": "A lazy service builds its inner service when it is first polled and not before, for its target, and only once for all its clones, however many tasks use them at a time; every use is of that service, and every poll gets to it. A handle that has been polled can be called whatever others do.", "quantifier": "all histories of handles that are cloned, polled and called, in any order and by any number of tasks; all panics while building", "why_tests_cant": "Tests use three clones; that no schedule builds twice or uses a service that was not built is about all of them.", "anchors": ["linkerd/stack/src/lazy.rs: NewLazy::new_service, Lazy::poll_ready, Lazy::call, Lazy::clone"]}
