# A Rocq model of linkerd2-proxy

Everything below is about the sources in `/repo` at the pinned commit.  The
model lives in `rocq/theories`.  For each cluster `X` of code there are up to
four files:

* `XModel.v`: total Gallina functions following the Rust code function by
  function.  Each definition cites the file and lines it models, and says where
  it simplifies.  No proofs.
* `XSpec.v`: a small declarative specification, written from the English
  property, which does not use the model's helpers.
* `XProofs.v`: lemmas.
* `XProps.v`: the property theorems only, each closed by `exact`, each followed
  by `Print Assumptions` and by an `Example` showing that a concrete case meets
  its hypotheses.

`properties.jsonl` lists the properties, `MANIFEST.json` maps them to theorems,
`seeded/LOG.jsonl` records the wrong programs tried against the theorems.

## Conventions

* Bytes are `N` (values below 256 where it matters), byte strings `list N`.
* Durations and instants are nanoseconds in `N` or `Z`.  Where Rust's checked,
  saturating or wrapping arithmetic is observable, it is written out.
* Panics (`expect`, `unreachable!`, out-of-bounds indexing) are explicit
  results.
* Asynchronous code is a transition system: one operation per poll or event.
  Schedules are arbitrary lists of operations.
* External code (regex engine, httparse, random numbers, clocks, inner
  services) is a parameter of the function or an input of the operation.  The
  theorems quantify over it.
* Claims of the English property that the code violates are proved as
  `..._refuted` theorems with a witness, and the part that does hold is proved
  next to it.

## Plan per property

| Id | What is modelled | How it is proved |
|---|---|---|
| C01 | `find`, `best`, `match_request` over abstract requests | induction on route and rule lists; argmax-first spec |
| C02 | `MatchHost::summarize_match`, `from_str`, `HostMatch` order | string induction, equivalence with declarative spec |
| C03 | `MatchPath::match_length` | string lemmas |
| C04 | summary orders | total order and lexicographic theorem; refuted part by witness |
| C05 | gRPC matcher and ranking | case analysis, split lemmas |
| C06 | `ModifyHeader::apply` over header multimaps | induction on the three lists |
| C07 | `RedirectRequest::apply` over URI records | case analysis |
| C08 | backoff arithmetic and stream | arithmetic, induction |
| C09 | EWMA over reals (`exp` from the standard library) | invariant by induction over observations |
| C10 | codec incl. protobuf encoding of the header message | round trip, all chunkings |
| C11 | `PrefixedIo` | induction over read sizes |
| C12 | `ReplayBody` state machine | invariant over poll sequences; refuted schedule by computation |
| C13 | same | invariant |
| C14 | retry loop | induction over outcomes |
| C15 | header parsers | round trip and rejection |
| C16, C18, C19 | breaker tasks as state machines over events | invariants, refinement to counters |
| C17 | sliding window ring | refinement to the full history |
| C20 | hint parsers | parser spec |
| C21 | gate | permits invariant over schedules of clones |
| C22 | failfast | ghost timeline invariant |
| C23 | p2c pool | refinement to a finite map; choice spec |
| C24 | balance queue worker | conservation invariant |
| C25 | endpoint gauges | counting invariant |
| C26 | idle cache | invariant over interleavings; refuted race by witness |
| C27 | distributors | invariant of the selection loop |
| C28 | authorization | equivalence with declarative spec incl. CIDR bits |
| C29 | TCP policy loop with watch versions | invariant |
| C30 | HTTP policy service | decision table theorem |
| C31 | rate-limit composition over GCRA cells | budget invariant; refuted part by witness |
| C32 | detection stages reading the policy watch | refuted by witness; safe if no change |
| C33 | load biaser | counting invariant; bounds |
| C34, C35 | W3C and b3 codecs | totality (refuted), round trips |
| C36, C37 | timeout future and bodies over a discrete clock | deadline theorems; refuted part by witness |
| C38 | detection over chunked streams | induction over chunks |
| C39 | ClientHello parser | monotonicity by compositional parser lemmas |
| C40 | same | refuted by a family of witnesses |
| C41, C42, C43 | names, suffixes, addresses | automaton against grammar; string lemmas; decimal round trip |
| C44 | recover stream | refinement to per-connection fold |
| C45 | histogram | induction over observations |
| C46 | ClientHello parser on well-formed messages | grammar of ClientHello records in the specification; parser lemmas |
| C47 | `Buf` and size hints of replayed bodies | refuted parts by witness; invariant for the rest |
| C48 | `PeekTrailersBody` over arbitrary inner bodies | case analysis over frames; frames-in equals frames-out |
| C49 | breaker tasks (C16) with response channel and gate | liveness by schedules; refuted when a probe is cancelled |
| C50 | classification of responses and the wrapper that sends classes | exactly-once invariant over polls and drops; declarative classes |
| C51 | authorizations of discovered policies | equivalence with declarative spec |
| C52 | backend cache of distributors | invariant over updates |
| C53, C54, C55 | request metrics, connection metrics, metric store | counting invariants over all events |
| C56 | endpoints sent by the control plane | fold of updates against a declarative "last word" spec; decision tables for metadata |
| C57, C58, C59 | how endpoints are connected to, `l5d-require-id`, direct connections | decision theorems over all endpoints and requests; refuted parts by witness |
| C60, C61, C62 | HTTP/1 over HTTP/2, hop headers, upgrades, URI normalization | round trip through both proxies; header multimap lemmas |
| C63, C64 | DNS resolution and refresh | decision theorem; history of lookups over a clock |
| C65, C66, C67 | synthesized responses, rescued bodies, proxy error headers | decision table over causes of errors; body invariant |
| C68, C69 | watches of control-plane streams, stream limits | invariant over histories of streams and time |
| C70–C73 | policy store, default policies, metadata, servers from the API | histories of the store; declarative readings of messages |
| C74–C77 | service profiles | declarative reading of messages; regular-expression semantics for paths |
| C78 | retries of profiles | induction over attempts; refuted parts by witness |
| C79–C83 | outbound discovery, sidecar, opaque traffic, ingress mode | histories of watches; decision tables; panics as results |
| C84–C89 | the configuration read from the environment | parser specs; field-by-field theorem over all environments |
| C90–C93 | copying between two sockets | trace invariant (Hoare triples over socket calls) for all answers of the sockets |
| C94 | routes of TLS connections | declarative order of matches; best match by induction over the list; case refuted by witness |
| C95–C98 | outbound policies of the control plane and the routers built of them | declarative reading of each message field; conversion iff reading, by composition over `Forall2`; lookups related to the message's rules; panics as `None` |
| C99 | success-rate thresholds | binary64 multiplication (Flocq) and rounding, error bounds over the reals |
| C100 | mutual TLS handshakes and identities | declarative reading of certificate names; iff for both ends over all peers |
| C101 | the credentials in use | invariant over all interleavings of publication steps, observers and the ALPN task |
| C102 | renewal by the identity controller | exact delay; invariant over all sequences of answers; timing theorem by induction |
| C103 | renewal by SPIRE | invariant over all interleavings of updates and the consumer |
| C104 | discovery, admission and authorization in the gateway | exact characterizations (iff) over all answers of the control plane, policies and clients |
| C105 | loop detection by `forwarded` | iff; induction over journeys of a request through gateways |
| C106 | what the gateway sends | header map algebra; case analysis of profiles and policies; the watches of C80 |
| C107 | the admin server: guards, shutdown, log level | exact characterizations (iff); induction over histories of requests |
| C108 | readiness, metrics, environment, the admin port's policy | iff; induction over histories of latches; composition with C30 |
| C109 | start of the process: identity, listeners, readiness | transition system of tasks; invariants over all histories |
| C110 | end of the process: drain and grace period | the same; a progress theorem gives the history that ends it |
| C111 | requests to tap and what they select | structural induction over nested messages, iff with a separate meaning |
| C112 | a tap's events | transition system; invariants over all histories; completeness by following one request |
| C113 | the registry of taps and who may tap | invariant: live taps are seen; composition with C100 |
| C114 | what the application is told of its client | composition of the models of every layer; iff for all header lists |
| C115 | which inbound requests are sent, and where | composition with C30; iff with a separate meaning of names |
| C116 | the way of an outbound request: rules, filters, backends | composition of C01–C05, C26–C29; one attempt as an inductive relation; iff of filters with relations |
| C117 | its retries | composition with C14–C16; induction over the attempts; one refuted reading |
| C118 | the labels of HTTP streams in metrics | iff with a ranking of causes; injectivity of the text; two refuted readings |
| C119 | that streams are counted once, with their durations | invariant over histories of events, against scans of the history; one refuted reading |
| C120 | the way of outbound connections that are not HTTP | composition with C27–C29, C94; iff with a relation of routes; refinement of histories to scans of the events |
| C121 | the counters of such connections | invariant over histories with a list of all connections; injectivity of the text; four refuted readings |
| C122 | the kinds under which errors are counted | iff with the first known cause; counts over histories; one refuted reading |
| C123 | the text of the proxy's own metrics | an executable reader of the format; the page is read back as the families that were counted; two refuted readings |
| C124 | the same text | injectivity of the labels of each key; two refuted readings |
| C125 | the watched services, `SpawnWatch` | a transition system of source, task and clones; an invariant that places each service in the list of values; a measure for the task; one refuted reading |
| C126 | `SwitchReady` | induction over the history of polls, against an inductive account of outages; one refuted reading |
| C127 | `TrackService` | invariants over the history, the drop in two steps; two refuted readings |
| C128 | the exporter of spans: collecting, the channel, the calls | a transition system; an invariant that splits the spans that came into sent, in flight, in the channel and collected; two refuted readings |
| C129 | `convert_span` and the counters, with the spans of the trace context | case analysis; induction for the counters; two refuted readings |
| C130 | `Reconnect` | a log of what is made, given up and waited for; an invariant over the rounds of polls; one refuted reading |
| C131 | the access log: spans, what is recorded on them, the lines | the text is read back by a reader of the spec; one refuted reading |
| C132 | the fields of an entry and its times | both directions for each field; one refuted reading |
| C133 | the cache of discoveries | an invariant over all histories, with the clock; one refuted reading |
| C134 | the number of threads, from the environment | equivalence with a specification by cases; floats are parameters; one refuted reading |
| C135 | the router of a profile: updates, polls, calls | an invariant over all histories; the last part is refuted, and proved while there is no update |
| C136 | listeners, the accept loop, allowed addresses, the switch by port, the counter of errors | an invariant over all histories; one refuted reading |
| C137 | how connections are made, with their limits of time, and the checks against loops | by cases against a relation of when parts are done; the part on the loopback interface is refuted for mapped addresses |
| C138 | from the policy's load to the estimate of an endpoint | composition of the models of the policy, the balancer and the biaser (C33); two refuted readings |
| C139 | the sensors of connections by zone and their counters | induction over the reads and writes of all connections, against sums over the history |
| C140 | the requests of the inbound router with the services that they hold, on the cache of C26 | invariant over histories that ties the holders of a handle to the requests being served |
| C141 | from a policy's message to the breakers of endpoints | composition of the models of policies (C96) and breakers (C16, C18) |
| C142 | labels of requests, authorities of URLs, and the channel of spans | parsers against the grammar of an authority; noninterference in credentials and headers; invariant over histories that ties each span to a request |
| C143 | the lock of the policy's watch with the reads and writes that each task makes, on any number of threads | invariant that counts the references of all threads; the deadlock is a schedule, for any other work on any other threads |
| C144 | policies with their names, the maps of counters, and any number of connections and requests that take a policy, decide and count in separate steps | invariant that gives each task's history as a relation; the counters are the sums over all histories; erasing the names gives the checks of C29 and C30 |
| C145 | the slab of writers, the weak filters, and any number of streams, each with its channels, its task and its client | invariant between the slab, the filters and the streams; by it each stream is a machine of its own; on that, accounts of lines kept and lost, and a measure of what is left to send |
| C146 | the calls on hyper's builders, as documented, over any defaults, from the environment's and the discovered settings | by cases over what is set, of a list of calls applied in order; the panics of the library are an explicit failure |
| C147 | from the environment's address and name, through what DNS answers, to targets, handshakes and requests' URIs | composes the models of the environment, of DNS and of mutual TLS; by cases on the address, for any answers and peers |
| C148 | the limit on requests in flight, shedding, counters of errors and answers, for histories of both servers | refinement of permits to the requests being served; a ghost list of results, by induction over histories |
| C149 | the headers by which proxies tell each other of services, from the application through both proxies to the lookup | composition of the models of the server, the profile's routes, the endpoint, the client (C60–C62) and the inbound proxy (C114, C115); one refuted reading |
| C150 | the settings of logs from the environment to what is written where; the text of times | case analysis of settings; digits of numbers by induction (value, length, order); two refuted readings |
| C151 | errors of the clients' connections, their downgrade for upgraded requests, both rescues of both proxies (RespondModel.v), and what hyper's servers make of what is left | verdicts on chains of errors by induction over sources, over the rules of C65; composition of the proxies; one refuted reading |
| C152 | handles of a lazy service, what they share and what is built, for all histories | invariant over histories in three phases (not built, built, panicked); one refuted reading |

## Trusted base

* The kernel of Coq 8.16.1.  No axiom is added, no check is switched off, and
  there are no admitted proofs.
* What `Print Assumptions` lists for each theorem; see the last section.
* The reading of the Rust code in the `*Model.v` files.  Every definition cites
  the lines it models; simplifications are stated in the comments.
* The specifications in the `*Spec.v` files, which the theorems are stated with.

### Code that is not in /repo

The behaviour of other crates is either a parameter, which the theorems
quantify over, or is modelled from its documentation:

* *Parameters*: random numbers, clocks, inner services and bodies, sockets, the
  answers of DNS and of the control plane, random permutations, the parsing of
  IPv6 addresses, URIs and floats where the text is not looked at by the proxy
  itself, the `regex` engine in routes.
* *Modelled from documentation*: tokio's `watch`, `mpsc`, `Semaphore`, `Sleep`
  and `interval` (with its burst behaviour), `tokio-util`'s `PollSender`,
  `poll_read_buf` and `poll_write_buf`, `tower`'s `Retry`, `TpsBudget` and
  `ReadyCache`, `http`'s `HeaderMap` (an ordered multimap), `Uri` and
  `StatusCode`, `governor`'s rate limiter (GCRA), `prost`'s protobuf codec and
  durations, the messages of `linkerd2-proxy-api`, `hickory-resolver`'s results,
  `ipnet`, the standard library's parsing of numbers and IPv4 addresses, and the
  core syntax of the `regex` crate for the paths of service profiles.
* *Not modelled*: hyper, rustls, tonic, the operating system, memory safety,
  logging, tracing spans, and the wiring of the stacks beyond the decisions
  named in the table of properties.

### General simplifications

* Floating-point numbers are real numbers in the model of the EWMA and of the
  load biaser (rounding and NaN are not modelled there); in the sliding window
  of the breaker they are IEEE 754 doubles (Flocq).
* Wakers are not modelled as such.  Where a property is about wakeups (C92, for
  example), it is stated as "an incomplete call was made in this very poll".
* Concurrency is interleaving of atomic steps, as fine as the code's own polls,
  locks and channel operations.  Weak memory orders are not modelled.

## What is modelled

| Files | Sources, and what of them |
|---|---|
| Accept | Model of how inbound connections are accepted: linkerd/proxy/transport/src/{listen.rs, listen/dual_bind.rs, orig_dst.rs}, linkerd/app/core/src/{serve.rs, transport/allow_ips.rs}, linkerd/app/inbound/src/accept.rs and, for what fails, linkerd/app/inbound/src/metrics/{error.rs, error/tcp.rs} with linkerd/stack/src/{filter.rs, result.rs, monitor.rs}. |
| Accrual | Model of how a policy's failure accrual becomes the breaker of an endpoint: linkerd/app/outbound/src/sidecar.rs:224-281 (as ingress.rs:533-600), linkerd/app/outbound/src/http/logical/policy/router.rs:140-190, http/concrete/balance.rs:165-177 and http/breaker.rs:38-112. Policies are those of ClientPolicyModel.v, and breakers those of BreakerModel.v. |
| Admin | Model of the admin server: linkerd/app/admin/src/server.rs, server/readiness.rs, server/json.rs, server/log/level.rs, server/log/stream.rs, stack.rs, linkerd/metrics/src/serve.rs and linkerd/tracing/src/level.rs. Simplifications: of bodies only what they are made of is modelled, not their JSON, gzip or text formats; the tracing subscriber and the metrics can always be read; profiling, a feature that is off, is left out; log streams are started, and what they then carry is not modelled. |
| Authz | Model of linkerd/proxy/server-policy/src/authz.rs, of the authorization checks of linkerd/app/inbound/src/policy.rs, and of the addresses they look at. |
| Backoff | Model of linkerd/exp-backoff/src/lib.rs. |
| Balance | Model of how the load of a policy configures the balancer of a backend: linkerd/proxy/balance/src/lib.rs, linkerd/proxy/http/src/balance.rs and linkerd/app/outbound/src/http/concrete/balance.rs. Durations are nanoseconds. Of tower's `PeakEwma`, another crate's, there are only the two numbers it is given; f64 does not round. |
| Biaser | Model of linkerd/load-biaser/src/lib.rs with `PendingUntilFirstData` of hyper-balance/src/lib.rs: the load of an endpoint, from the times its responses took Simplifications: f64 is the real numbers as in EwmaModel.v; what is done while the lock of the average is held, and what a handle does when it is dropped, is one step. The times of the steps are arbitrary, as every task reads the clock for itself before it takes the lock. Times are nanoseconds. |
| Breaker | Model of linkerd/app/outbound/src/http/breaker/{consecutive_failures,unified}.rs together with the gate and the response channel they are connected to (linkerd/http/classify/src/{gate,channel}.rs). |
| Cache | linkerd/idle-cache/src/lib.rs: a cache whose unused values expire Keys and values are numbers: keys are only compared, values only copied. Every event is a part of the program that other threads cannot interleave with: a lookup holds the lock, `Cached::drop` first notifies and then gives up its reference, and the eviction task first sees its timer expire and then takes the lock. Not modelled: dropping the cache itself, and a runtime that is shut down. |
| Canon | Model of the names of services that requests carry from proxy to proxy: linkerd/proxy/http/src/strip_header.rs and header_from_target.rs, as linkerd/app/outbound/src/ingress.rs, http/logical.rs and http/logical/profile.rs use them, with the outbound server and the client that they stand between. Simplifications: bodies, metrics, traces, retries and timeouts are left out; filters of a policy's routes change none of the headers; the services are ready. |
| Classify | Model of linkerd/app/core/src/classify.rs, of the response matches of linkerd/service-profiles/src/http.rs and of the body wrapper that sends classes, linkerd/http/classify/src/channel.rs. |
| ClientPolicy | Model of the outbound policies that the control plane sends: linkerd/proxy/client-policy/src (lib.rs, http.rs, grpc.rs, opaq.rs, tls.rs), of the conversions of messages in linkerd/http/route/src and linkerd/tls/route/src/sni.rs, and of the routers that the outbound proxy builds of a policy: linkerd/app/outbound/src/http/logical/policy/router.rs, opaq/logical/router.rs and tls/logical/router.rs. Simplifications: which error a message is refused with is not modelled; the order of a policy's set of backends is that of their first occurrence. |
| ConnMetrics | Model of linkerd/transport-metrics/src/sensor.rs and linkerd/io/src/sensor.rs: the counters of connections and bytes that the connections of one kind share Everything that one call does with the counters happens at once, and one reading of the clock stands for those within one call. |
| Connect | Model of how the outbound proxy connects to an endpoint (linkerd/app/outbound/src/http/concrete.rs, opaq/concrete.rs, tls/concrete.rs, http/endpoint.rs, http/require_id_header.rs and tcp/tagged_transport.rs) and of how the inbound proxy takes a connection to its own port (linkerd/app/inbound/src/direct.rs). Simplifications: an authority is its text, and what `http::uri::Authority` says of its host and port is a parameter; so is parsing a URL. |
| Control | Model of the clients of the control plane: linkerd/app/core/src/control.rs, with where they connect to (EnvModel, DnsModel) and how they authenticate it (MtlsModel). The balancer, reconnecting and the recovery of resolutions are modelled elsewhere (BalanceModel, ReconnectModel, DnsModel). |
| Count | Model of the counters of authorizations: linkerd/app/inbound/src/metrics/authz.rs, where policy/tcp.rs and policy/http.rs use them, and linkerd/proxy/server-policy/src/meta.rs. The checks themselves are those of PolicyModel.v; here policies have their names. |
| Dial | Model of how connections to servers are made: linkerd/app/outbound/src/tcp/{connect.rs, endpoint.rs}, linkerd/app/inbound/src/server.rs:110-158, linkerd/proxy/transport/src/connect.rs, linkerd/stack/src/timeout.rs and `push_connect_timeout` of linkerd/app/core/src/svc.rs. The `allow-loopback` feature, which is for tests, is off. Timers are exact. |
| Disco | Model of linkerd/app/core/src/disco_cache.rs: services that are made from the answer of a discovery, which is shared by all the services of a key and kept until no service has used it for the idle timeout. The cache is that of idle-cache/src/lib.rs, of which C26 has a model with all its steps; here it is taken as it behaves when its task is prompt: an entry goes away, in one step, when no handle is left and none was dropped for the idle timeout. The queue of a discovery (stack/src/queue.rs:190-199, tower's `Buffer`) is there to share it between the services: it gives each the answer, or the error. The discovery begins when the entry is made; in the code it begins at the first poll of a service. Keys, what is discovered, and errors are numbers. |
| Discover | Model of what the outbound proxy discovers about a destination and of how it decides what to do with a connection: linkerd/app/outbound/src/discover.rs, sidecar.rs, protocol.rs, opaq.rs, ingress.rs and `spawn_routes` of http.rs (and of tls.rs and opaq.rs, which are the same), with linkerd/service-profiles/src/allowlist.rs. Simplifications: what the routing never looks into is a number (the filters and parameters of routes, failure accrual, load estimators, the routes of TLS policies); a watch is the value it holds, and the reading of a watch at some time is a value of a function of time. |
| Distribute | Model of linkerd/distribute and of linkerd/router/src/cache.rs |
| Dns | Model of linkerd/dns/src/lib.rs, linkerd/dns/src/minimum_ttl.rs, linkerd/proxy/dns-resolve/src/lib.rs and of the recovery of linkerd/app/core/src/control.rs: how the addresses of the control plane are found and kept up to date Times are nanoseconds. What the resolver (hickory) answers is an input. |
| Duplex | Model of linkerd/duplex/src/lib.rs, which copies bytes between the two sockets of a proxied connection. The sockets are given by what they answer to the calls that are made on them: a poll takes a list of answers, one for each call in the order in which the calls are made, and leaves a trace of the calls. When there are no answers left the poll is still going on. The buffer of a direction is the bytes of `CopyBuf` from `read_pos` to `write_pos`. |
| Endpoint | Model of linkerd/proxy/api-resolve: how the endpoints that the control plane sends become the addresses and the metadata the proxy uses. Simplifications: the `HashMap`s of a message are lists of pairs whose keys differ, in the order of their iteration; what other crates parse is a parameter: a URI (`url::Url::parse`, giving its text), an authority (`http::uri::Authority`, giving its text) and a duration (`std::time::Duration::try_from`, giving nanoseconds). |
| Env | Model of the configuration of the proxy, which it reads from its environment: linkerd/app/src/env.rs and its modules linkerd/app/src/env/*.rs. Texts are ASCII; blanks outside of ASCII, which Rust's `trim` and `\s` also skip, are not modelled. |
| Ewma | Model of linkerd/ewma/src/lib.rs. Simplification: f64 values are real numbers plus infinity; rounding and NaN are not modelled. Instants and durations are nanoseconds. |
| Export | The export of spans to a collector: linkerd/opentelemetry/src/lib.rs and metrics.rs. |
| Failfast | Model of linkerd/stack/src/failfast.rs |
| Filter | Model of linkerd/http/route/src/http/filter: header modification and redirects. |
| Forward | The way of an outbound connection that is not HTTP through the route that a client policy gives it, and the counters of such connections: linkerd/app/outbound/src/opaq/logical/{router,route}.rs, opaq/logical/route/filters.rs, opaq/concrete.rs, their counterparts in linkerd/app/outbound/src/tls, metrics/transport.rs and metrics/error.rs, with linkerd/tls/src/server/required_sni.rs, linkerd/proxy/tcp/src/forward.rs and linkerd/app/inbound/src/metrics/error.rs. Paths without a directory are in linkerd/app/outbound/src. |
| Gate | Model of linkerd/stack/src/gate.rs: the gate, its channel and the semaphores it hands out permits from. Every access to something shared (the watch channel, a semaphore) is a step of its own, so that polls of different clones and the senders interleave in any way. Not modelled: wakers (a clone may be polled at any time), `Err(Closed)` (the sender is only told so when nobody can observe the gate any more) and `add_permits` on the semaphore returned by `limit`, which only tests use. |
| Gateway | Model of the multicluster gateway: linkerd/app/gateway/src/discover.rs, server.rs, http.rs, http/gateway.rs and opaq.rs. Simplifications: a watch is the value that is read of it; the outbound stack is ready. |
| Gauge | Model of linkerd/proxy/balance/gauge-endpoints/src/lib.rs: the gauges of ready and of pending endpoints, which all endpoints of a balancer share |
| Hint | Model of linkerd/http/classify/src/retry_after.rs. Durations are in nanoseconds. |
| Histogram | Model of linkerd/metrics/src/histogram.rs, counter.rs and latency.rs |
| Http1 | Model of what the proxy does to HTTP/1 messages: the upgrade service of its HTTP/1 server (linkerd/http/upgrade), the forms of URIs (linkerd/proxy/http/src/normalize_uri.rs, linkerd/http/override-authority), carrying them over HTTP/2 (linkerd/proxy/http/src/orig_proto.rs) and the HTTP/1 client (linkerd/proxy/http/src/h1.rs). Simplifications: bodies are not modelled; of a request's extensions only those that these modules read or write are; the names in a header map are lower-case, as `HeaderName`s are; parsing an authority is a parameter. |
| Inbound | Model of the path of an HTTP request through the inbound proxy: linkerd/app/inbound/src/http/server.rs, http/set_identity_header.rs and http/router.rs, with the layers that they stack (policy/http.rs, the HTTP server's upgrades, linkerd/http/proxy, linkerd/trace-context), to the connection to the application. Simplifications: bodies, metrics, taps and access logs are left out; the concurrency limit admits the request, and the services are ready; a profile decides about metrics and classes of responses only (router.rs:139-159), so of its lookup only the question is modelled; parsing an authority, an IP address and a form are parameters. |
| Io | Model of readable streams and of linkerd/io/src/prefixed.rs. |
| Label | The text of the metrics the proxy writes itself: linkerd/metrics/src/{fmt,counter,gauge, histogram,store}.rs, http/metrics/src, transport-metrics/src, stack/metrics/src, opentelemetry/src/metrics.rs, app/core/src/metrics.rs and app/core/src/transport/labels.rs. (The registry of the crate prometheus_client, whose text follows this one, is of another crate.) A registry is the list of its entries, in the order in which the map is walked. |
| Lazy | Model of services that are built when they are first used: linkerd/stack/src/lazy.rs. Simplifications: the services that are built are told apart by numbers, and a clone of one has its number; their own readiness and answers are theirs, so what is recorded is that they are polled and called. The lock is held while a service is built (lazy.rs:66-80), so every poll is one step and any schedule of tasks is a list of steps. |
| Life | Model of the life of the process: its start (linkerd/app/src/lib.rs, linkerd/app/src/identity.rs), its listeners (linkerd/app/core/src/serve.rs), what its connections do when it shuts down (linkerd/proxy/http/src/server.rs, linkerd/http/upgrade/src/upgrade.rs), and its end (linkerd2-proxy/src/main.rs). The crate drain is external, and modelled by what it documents: `Signal::drain` tells all `Watch`es, and completes once all of them, and what `Watch::signaled` gave, are dropped. |
| Lock | Model of the lock on an inbound policy: app/inbound/src/policy.rs, policy/tcp.rs and policy/http.rs, with the lock of [tokio::sync::watch]. |
| Log | Model of the access log: linkerd/http/access-log/src/lib.rs, which records the fields of a request and of its response in a span, and linkerd/tracing/src/access_log.rs, which writes the fields of the span when it closes. Instants and durations are numbers of nanoseconds. A span closes when the future that holds it is dropped: spans of the inner services, which would keep it open, are left out. The texts of the client's address, of the time, of the method and of the URI are given as they are displayed. The JSON format is modelled up to the object that is written, without the escapes of its text; `tracing_subscriber`'s `JsonFields` merges what is recorded later into that object. |
| Mtls | Model of the proxy's mutual TLS: linkerd/meshtls/verifier/src/lib.rs, linkerd/meshtls/src (creds.rs, creds/store.rs, creds/receiver.rs, creds/verify.rs, client.rs, server.rs), linkerd/tls/src (client.rs, server.rs), linkerd/identity/src (lib.rs, metrics.rs), linkerd/app/src/identity.rs, linkerd/proxy/identity-client/src/certify.rs and linkerd/proxy/spire-client/src (lib.rs, api.rs). Times are nanoseconds since the UNIX epoch, durations nanoseconds. |
| Name | Model of linkerd/dns/name and of the named addresses of linkerd/addr. |
| Outbound | The way of an outbound HTTP request through the route that a client policy gives it: linkerd/app/outbound/src/http/logical/policy/{router,route}.rs, route/{filters,backend}.rs, with linkerd/stack/src/loadshed.rs and linkerd/http/retry/src/lib.rs (RetryModel). Paths without a directory are in linkerd/app/outbound/src/http/logical/policy. |
| P2c | Model of the balancer's pool of endpoints (linkerd/pool/p2c/src/lib.rs), which its worker (linkerd/proxy/balance/queue/src/worker.rs) tells what was discovered. Addresses and targets are numbers; services are numbered as they are built. |
| Peek | Model of linkerd/http/retry/src/peek_trailers.rs. |
| Policy | Model of the enforcement of inbound policies: linkerd/app/inbound/src/policy/tcp.rs, policy/http.rs and detect.rs. |
| PolicyStore | Model of where the inbound proxy's policies come from: linkerd/app/inbound/src/policy/store.rs, defaults.rs, config.rs and api.rs, the reading of a server sent by the control plane, linkerd/proxy/server-policy/src/{lib,http,grpc,authz,meta}.rs, and the default policies of linkerd/app/src/env.rs. |
| Profile | Model of service profiles: linkerd/service-profiles/src/proto.rs and http.rs, and of what the outbound proxy makes of them, linkerd/app/outbound/src/http/logical/profile.rs. |
| ProfileRetry | Model of the retries of service profiles: linkerd/app/outbound/src/http/retry.rs and linkerd/retry/src/lib.rs. The loop itself is `tower::retry::Retry`, which is not in /repo: it clones the request, calls the service, asks the policy about the result, and if it says so waits for the service to be ready and goes on with the clone. The budget is `tower`'s, too; it is shared by all requests of the profile, so that what it answers is left open. |
| Prom | Model of the Prometheus metrics of HTTP streams: linkerd/http/prom/src (`status`, `record_response`, `count_reqs`, `body_data`, `stream_label`), linkerd/http/body-eos/src/lib.rs, and how outbound routes (linkerd/app/outbound/src/http/logical/policy/route/metrics.rs and metrics/labels.rs) and inbound routes (linkerd/app/inbound/src/http/router/metrics/status.rs) use them. Simplifications: an error is the chain of its causes, outermost first, as far as labels look at it; a family is a list of its series; a histogram is the list of what was observed; all that happens in one poll happens at one time. |
| ProxyRouter | Model of linkerd/service-profiles/src/http/proxy.rs: requests go through the proxy of their route, of the profile that was there when the router was last polled. A route of a profile is a description, which is a number here. Routes are equal if their labels, and the rest, are the same in memory (service-profiles/src/http.rs:14-20, 225-229), and each route that is read has labels of its own (http.rs:80-93): a route is known by when it was read. Proxies are numbered as they are made. The routes of a profile are in a hash set, whose order is that of the profile here. A route matches as [matches] says (C15). The stream of profiles (service-profiles/src/lib.rs:156-161, tokio's `WatchStream`) tells the value that is there at first, and then the latest one whenever it was updated since. |
| Queue | Model of the queue in front of a balancer: linkerd/proxy/balance/queue/src/{worker,failfast,service,message}.rs One task (the worker) takes requests from a channel and gives them to the pool. A step is what the worker does between two points at which it waits, or one access of a client to the channel. What the pool, the discovery stream and the clock do is arbitrary. Requests are numbered as they are put in the channel; errors are numbers; times are numbers too. The gate that clients pass is a flag here (see GateModel.v); discovery updates do not change anything in this model (see P2cModel.v). Metrics: only the length of the queue. |
| RateLimit | Model of linkerd/proxy/server-policy/src/local_rate_limit.rs. `governor::RateLimiter` is of another crate: [fresh rps] is the state of a limiter of `Quota::per_second(rps)` which has seen nothing and [step rps] its `check` at some time. A keyed limiter has one such state for each key. [gcra_fresh] and [gcra_step] are one such limiter, for examples. Requests are checked one after the other. |
| Reconnect | A service that is made again after it failed, with a backoff: linkerd/reconnect/src/lib.rs. |
| Recover | Model of linkerd/proxy/resolve/src/recover.rs: a resolution that is recovered when it fails Every step is one turn of a loop of `poll_next` or `poll_connected`; it is told what the thing that is polled in it answers. `Pending` ends a poll and changes nothing, so that there is no step for it. Addresses and endpoints are numbers: they are only compared and copied. |
| Regex | A model of the `regex` crate, which is not in /repo, for the core of its syntax: characters, escaped punctuation, `.`, `^`, `$`, `*`, `+`, `?`, `\|` and groups. Classes, counted repetition, flags and escaped letters are not modelled: the model refuses them. It is used for conditions on paths (service-profiles/src/proto.rs:108-120). |
| Replay | Model of linkerd/http/retry/src/replay.rs and replay/buffer.rs. Simplifications: trailers are a list of pairs; the inner body is the list of the results that its polls will give, after which it has ended; frames that are neither data nor trailers do not exist; `max_bytes + 1` does not overflow. |
| ReqMetrics | Model of linkerd/http/metrics/src/requests/service.rs: the counters of requests and responses that the services of one target share How responses are classified is a parameter (see ClassifyModel.v): [classifier] and [eos_classifier] are `C` and `C::ClassifyEos`. Errors, trailers and classes are numbers. The histogram of latencies is the list of what was added to it (see HistogramModel.v). Everything that one call does with the counters happens at once, and one reading of the clock stands for those within one call. |
| Reset | Model of what becomes of the errors of connections to peers: of the clients by which requests are sent (linkerd/proxy/http/src/orig_proto.rs, client.rs), through the proxy's rescues (RespondModel.v), to what the application's connection sees of them. Simplifications: of the layers between the endpoint and the server, only that they may wrap errors, as `EndpointError`s do, is modelled: each wrapper is of another type than those asked for and has the error as its source; what handles headers of answers is in RespondModel.v. |
| Respond | Model of how the proxy answers for the errors it meets: synthesizing responses (linkerd/app/core/src/errors/respond.rs), rescuing the bodies of gRPC responses (linkerd/app/core/src/errors/body.rs), which errors become which response (app/outbound/src/http/{server,endpoint}.rs, app/inbound/src/http/{server,router}.rs, app/admin/src/stack.rs) and what the outbound proxy makes of the headers in which a peer's proxy reports its errors (app/outbound/src/http/handle_proxy_error_headers.rs). Simplifications: logging and spans are not modelled; the type of an error is one of those that this code asks for, or another one; its text and its sources are data; the location of a redirect is its text. |
| Retain | Model of how the inbound proxy keeps the services of its requests: linkerd/http/retain/src/lib.rs on linkerd/idle-cache/src/new_service.rs, as linkerd/app/inbound/src/http/router.rs:226-245 puts them together with `OneshotRoute` of linkerd/router/src/lib.rs. The cache is that of CacheModel.v. A target is a key, and a service a number. Services are only kept here; what they do with requests is elsewhere. |
| Retry | Model of linkerd/http/retry/src/lib.rs (the retry loop), of linkerd/app/outbound/src/http/logical/policy/route/retry.rs (the policy) and of route/extensions.rs (per-request configuration). |
| Route | Model of linkerd/http/route: request matching and route lookup. |
| Rt | Model of linkerd2-proxy/src/rt.rs and linkerd/workers/src/lib.rs: how many threads the proxy runs on. |
| Settings | Model of how the connections of HTTP/2 are set up: linkerd/proxy/http/src/h2.rs and linkerd/proxy/http/src/server.rs, with the settings of linkerd/http/h2/src/lib.rs (EndpointModel, EnvModel). What hyper's builders keep, and what their methods do, is taken from hyper's documentation: the libraries are not in /repo. How the settings act on a connection is not modelled. |
| Shed | The limit on the requests that a proxy serves at a time and the counters of those that fail: linkerd/app/inbound/src/http/server.rs:69-84, linkerd/app/outbound/src/http/server.rs:31-48, linkerd/stack/src/loadshed.rs, linkerd/stack/src/monitor.rs, linkerd/stack/src/map_err.rs, linkerd/app/inbound/src/metrics/error.rs and error/http.rs, linkerd/app/outbound/src/metrics/error.rs and error/http.rs, with `tower::limit::GlobalConcurrencyLimitLayer`, which linkerd/app/core/src/svc.rs:14 names. Each request has a clone of the service of its connection, which is dropped when the request was passed on (`hyper_util::service::TowerToHyperService`, linkerd/proxy/http/src/server.rs:176 and 200), so a permit or a place in the queue of the semaphore does not outlive the attempt to be ready. The semaphore is one for all connections. Spans and logs are left out. |
| Sni | Model of linkerd/tls/src/server/client_hello.rs and of the detection of linkerd/tls/src/server.rs. |
| Span | Model of what is recorded of a request in a span: trace-context/src/service.rs and app/core/src/http_tracing.rs. |
| Store | Model of linkerd/metrics/src/store.rs and new_metrics.rs, with the reports of linkerd/http/metrics/src/requests/report.rs and linkerd/transport-metrics/src/report.rs: the metrics of many targets, shared by those that record and the reports A metric is one number that is added to (the counters are in ReqMetricsModel.v and ConnMetricsModel.v), with the time of its last update. A report reads all of them at once; in the code each kind of metric is read on its own, while others may record. The order of a `HashMap`'s entries is that of the list here. |
| Stream | Model of the log streams of the admin server: linkerd/tracing/src/stream.rs and what app/admin/src/server/log/stream.rs does once a stream has started. Simplified: how the crate tracing-subscriber formats an event as JSON is left out, and an event brings its line, which the crate writes in one piece; the interest of callsites is computed at each event, and not cached, since [reload::Handle::modify] computes it anew; [AtomicUsize] is [N] and does not wrap around. |
| Swap | Services that are exchanged or watched while they are used: linkerd/stack/src/watch.rs (`SpawnWatch`, by which new routes reach the connections and requests of a destination), linkerd/stack/src/switch_ready.rs (by which an inbound request goes without a service profile that does not come), and linkerd/stack/metrics/src (the counters of stacks). |
| Tap | Model of linkerd/proxy/tap/src: the requests that a tap selects (grpc/match_.rs), the events that it reports (grpc/server.rs, service.rs), the taps that are known (registry.rs) and the clients that may ask (accept.rs). Headers are the [headers] of FilterModel, addresses those of AuthzModel. |
| Timeout | linkerd/http/stream-timeouts/src/lib.rs: timeouts of a request and its response Time is in nanoseconds since the call; a `Sleep` is the time it ends, and done from then on (tokio's timers are coarser). |
| TlsRoute | Model of linkerd/tls/route/src/lib.rs and sni.rs: which route a TLS connection takes, by the server name that its client asks for. A `ServerName` is a [name_from_str] name (linkerd/tls/src/lib.rs:95-100), as bytes. |
| Trace | Model of linkerd/trace-context/src: propagation.rs, propagation/b3.rs, propagation/w3c.rs and the header handling of service.rs. |
| Transport | Model of linkerd/transport-header: the protobuf codec that `prost` generates from gen/transport.l5d.io.rs, and the reading of a header from a stream. |
| Uptime | Model of how the proxy's logs are set up and of the times of their lines: linkerd/tracing/src/lib.rs (`Settings`), with level.rs, access_log.rs and uptime.rs. Simplifications: the filter of levels is its text, which the crate tracing-subscriber reads; the times are of the monotonic clock, in nanoseconds; of a line, only its time is modelled; white space is that of ASCII. |
| Watch | Model of the watches of what the control plane says: linkerd/tonic-watch/src/lib.rs, which inbound and outbound policies, service profiles and SPIRE identities are watched with, and of the limits on its streams: linkerd/tonic-stream/src/lib.rs. Simplifications: logging is not modelled; of a status only its code matters; the task of a watch is a state machine whose events are what its awaits return. A backoff is the number of the call of `recover` that returned it; when it yields is not modelled. |
| Window | Model of linkerd/app/outbound/src/http/breaker/success_rate.rs. |
| Zone | Model of the counters of bytes by zone: linkerd/transport-metrics/src/{zone.rs, zone/client.rs, zone/sensor.rs}, linkerd/app/outbound/src/zone.rs, `OutboundZoneLocality` of linkerd/app/core/src/metrics.rs and, of linkerd/io/src/sensor.rs, what is recorded of reads and writes. The connections are those that the TLS client has been pushed on (app/outbound/src/tcp/endpoint.rs:32-52), so the bytes are those within TLS. |

Sources that are not named here are not modelled.

## Findings

Where the code does not do what the property or its own documentation says, a
theorem (`..._refuted`, or a witness) shows it.  In the order of properties:

* **C04, C05** An exact path does not beat a prefix of equal length; gRPC
  matching ignores extra path segments.
* **C07** Redirecting a `CONNECT` request panics; replacing the root prefix
  yields `//`; **C65** a location that is no header value panics
  (`respond.rs:177`).
* **C08** The backoff stops doubling after 32 steps, and panics for absurd
  maxima.
* **C09** A peak moves the EWMA's clock backwards.
* **C12, C47** A replayed body's clone that is polled before anything was read
  duplicates the first chunk; a clone kept for a retry that is never polled can
  make the other one panic; `Buf::chunk` breaks its contract when the first DATA
  frame is empty (an endless loop for callers that rely on it); `size_hint`
  over-reports.
* **C14, C78** The client gets the readiness error of the retry rather than the
  last response; retry headers are only removed if the route allows them; errors
  are never retried by profile retries; the first chunk may be sent twice.
* **C15** `-0` is accepted as a gRPC pushback of 0.
* **C16, C18, C49** A breaker stays tripped for ever if the probe is cancelled;
  a response in flight since before decides the probation; classes are dropped
  when the channel is full; a maximum of 0 consecutive failures never trips.
* **C21, C22** An old permit of the gate may be handed out between closing
  steps; dropping a `FailFast` that is in failfast aborts its task and leaves the
  gate shut for its clones; a request right after recovery still fails.
* **C23** A stale target serves until its replacement is ready; a selection made
  earlier may be of a load that has changed.
* **C24** A discovery error while the failfast gate is shut leaves the gate shut
  and callers waiting (`gate.rs:108-113`).
* **C26** A cached value may be evicted right after its last handle is dropped.
* **C27, C77** A single backend of weight 0 is used; two or more backends of
  weight 0, or weights whose sum overflows `u32`, panic.
* **C28, C51** Identities in policies with upper-case letters never match;
  suffixes do not apply to URI identities; empty suffix parts match every DNS
  identity.
* **C31** A request that the identity's limit rejects still consumes the total
  limit; GCRA admits more than `rps` within one second; more than 10^9 per second
  means no limit.
* **C32** A policy changing from detection to opaque during TLS detection reaches
  `unreachable!` (`detect.rs:205`).
* **C33** Transport errors are not penalized.
* **C34, C35** A `traceparent` with empty flags panics; overlong ids are
  accepted; a binary trace header without a trace id is forwarded undecodable.
* **C36, C37** A response-end timeout shorter than the headers timeout, and the
  idle timeout, are not enforced while waiting for headers.
* **C38, C40** The SNI peek is never used; malformed but complete records make
  the proxy buffer without bound.
* **C44** Connecting and then failing before any update restarts the backoff;
  polling after an unrecoverable error panics; a leading `Remove` is ignored.
* **C45** Observations over 2^53 wrap before a bucket is chosen.
* **C50** A gRPC response without a status is a success.
* **C53, C54** Errors before the first frame have no latency; latencies end with
  the first frame; responses may outnumber requests; after its first error a
  connection counts as closed and its later bytes are not counted.
* **C56** Ports are taken modulo 2^16; an invalid identity, or a URI identity
  without a server name, makes the endpoint plaintext; port 65535 is refused for
  opaque transport.
* **C57** An authority override without a port yields a header without a name;
  opaque and TLS forwards are never treated as local.
* **C58** An unparsable `l5d-require-id` is ignored, as are all values but the
  first.
* **C60, C61, C62** Retries lose the absolute form and the upgrade; HTTP/2
  clients can spoof `l5d-orig-proto`; only the first `Connection` header's options
  are stripped; `CONNECT` with `Upgrade: h2c` loses its tunnel; an unsolicited 101
  is forwarded without a tunnel; the authority override turns `https` into
  `http`.
* **C63, C64** One invalid SRV record discards all; an SRV answer without SRV
  records yields no addresses and no fallback; retries may follow at once after a
  slow failing lookup.
* **C65, C66** Injected failures of inbound routes answer 500 and close the
  connection; timeouts of profiles at the gateway answer 500; a mid-stream rescue
  does not close the connection.
* **C68, C69** A stream that delivers one item and ends is looked up again
  without backoff; the initial timeout without an idle timeout ends streams that
  gave items already.
* **C70, C71** A port not in the configuration falls back to the default policy
  after eviction; `all-authenticated` refuses SPIFFE identities; the default
  `deny` denies localhost; the process-wide invalid policy keeps the first
  timeouts.
* **C74, C75, C76** Invalid parts of `All` are dropped, so that `All([invalid])`
  matches every request; path patterns are anchored by concatenation
  (`/foo|/bar`); status ranges are truncated to 16 bits.
* **C81, C83** An opaque profile with an HTTP policy panics the connection
  (`opaq.rs:131`), as does a policy that changes kind (`sidecar.rs:209, 348`); in
  ingress mode non-HTTP connections to HTTP policies panic.
* **C84–C89** Durations in minutes, hours and days wrap; SPIRE's backoff variable
  has a doubled prefix; half of a pair of HTTP/2 settings is ignored; a loopback
  control address drops the name; lists of IP addresses are not trimmed.
* **C92, C93** A busy direction starves the other within a poll; the rest of a
  partial write is not flushed (`lib.rs:182`).
* **C94** A client's server name is lower-cased when it is parsed
  (`dns/name.rs:134`) but a route's SNI names are compared as they are, so a TLS
  route with an upper-case letter in its name matches nothing. HTTP host matching
  ignores case.
* **C96** Ports of metadata above 65535 are dropped rather than refused; the
  conditions of a retry may begin below status 100; a maximum of 0 consecutive
  failures is accepted; the maximum of gRPC retries is not limited to 16 bits as
  that of HTTP retries is; a backend's own request timeout is not read.
* **C97** `Meta`'s equality ignores namespace, section and port
  (`client-policy/src/lib.rs:396-401`), so backends that otherwise agree are merged
  across namespaces.
* **C98** A message whose weights are all 0, or whose balancer has a destination
  that is not a name and a port, or whose endpoint has port 0, is accepted, and the
  proxy panics when it builds the router.
* **C99** A positive threshold below 0.005% becomes 0 and so turns tripping off.
* **C100** A proxy accepts a certificate if any of its names is the proxy's
  identity, but peers take only the first readable name: with the identity second,
  the proxy is authenticated as somebody else.
* **C102** A certificate with less than the least refresh delay left expires before
  it is renewed. An expiry more than about 83 billion years ahead (a controller that
  sends the greatest timestamp) overflows `Duration * 7`, and the panic ends renewal.
* **C103** An SVID update that is superseded before it is processed is lost, even if
  the newer update has no SVID of the proxy's identity.
* **C105** Only the first `by` of each `Forwarded` header is looked at. An
  intermediary that joins the headers with a comma, as HTTP allows, hides the
  gateway's own `by`, and the request loops. A gateway whose identity is a URI with
  `=` or `;` never recognizes itself.
* **C106** An authorized client that opens an opaque gateway connection (a transport
  header with a name and no protocol) to a service whose outbound policy is for
  HTTP, gRPC or TLS makes the proxy's task panic ("initial policy must be opaque").
  Outbound policies have no effect on HTTP requests through the gateway.
* **C107** A `PUT /proxy-log-level` (and a `QUERY /logs.json`) whose body comes in
  several frames sets the log level from the first non-empty frame alone: the body is
  aggregated, but only its first chunk is read.
* **C108** `/env.json` is not guarded as `/proxy-log-level`, `/logs.json` and
  `/shutdown` are: any client that may reach the admin port reads the whole
  environment. `accept-encoding: gzip;q=0` still gets gzip; a second `accept` is not
  looked at, so a client that takes JSON may get 406.
* **C109** With SPIRE, if the first connection to the workload API fails, the identity's
  task panics (`expect`), which drops the sender that `Identity::ready` waits for; its
  `expect` then panics in the task that holds the readiness latch, and the unwinding
  drops the latch, which is how a latch is released. So `/ready` answers 200 although
  the proxy has no identity, never will, and accepts no connection. Connections may be
  accepted after the shutdown began, even by listeners that only start then.
* **C110** While the identity is not certified, the task that waits for it holds a drain
  watch: a shutdown then always takes the whole grace period, even with no connection.
  Connections to the tap are not waited for.
* **C111** Empty parts of a conjunction or disjunction are dropped, not refused: a
  conjunction of nothing but empty parts taps every request. Networks of prefix length
  0 cannot be asked for. An unregistered scheme "HTTP" is accepted, but no request with
  the scheme http is selected by it, although other schemes ignore case.
* **C112** A request that its client gives up before the response is reported without an
  end. A body that is dropped early is reported like one that ended. If the tap's client
  does not keep up, requests are counted against the limit without being reported, so
  that the stream may end with fewer. The size of responses is always reported as 0.
* **C113** `Registry::clean` forgets the taps that are over but does not publish the
  list: services go on looking at them until the next tap begins.
* **C115** An inbound proxy believes `l5d-orig-proto` of any client, meshed or not. A
  request over HTTP/2 with that header and without the note `absolute-form` is sent to the
  application in origin form with the `host` header that the client has put there, while
  the policy has matched the `:authority`: routes that differ by host names do not keep
  clients apart (`C115_host_refuted`). The profile that is looked up is chosen by
  `l5d-dst-canonical`, which any client may send too.
* **C114** With an upgrade request a client may list `l5d-client-id` in `connection`, which
  is passed on: a server that honours that does not see the identity.
* **C117** `LoadShed` stands below the retries of an outbound route, so what they call is
  always ready: the branch and the counter for an overflow are dead (`C117_no_overflow`), and
  a retry that finds no ready backend replaces the answer that the client could have had by
  an error of shed load (`C117_kept_refuted`).
* **C118** Outbound gRPC: a stream without a code and one with the code UNKNOWN have different
  labels in the family but the same text, so the metrics have two series with the same name
  and labels (`C118_text_grpc_refuted`), which scrapers refuse or drop. Trailers without
  `grpc-status` erase a code that the headers had (`C118_trailers_refuted`).  A response that
  is dropped is labelled `UNKNOWN`, like any error that is not known.
* **C119** A request whose client goes away before the response has come is counted as a
  request but has no status and no duration (`C119_abandoned_refuted`): the futures do
  nothing when they are dropped.  A response that ends before its request is observed with
  the duration zero.
* **C121** A connection whose future is dropped, as when the proxy is shut down, is counted
  as opened and never as closed (`C121_dropped_refuted`).  Series whose target is a name
  have no address in their text, so two names with one port collide (`C121_text_refuted`);
  and metadata compare without their namespace, so TLS connections for parents of one name
  in two namespaces share the series of the first (`C121_namespace_refuted`,
  `C121_shared_refuted`).
* **C122** The counters of errors know only the response timeout of service profiles; the
  timeouts that client policies set are counted as "unexpected" (`C122_timeout_refuted`).
* **C123** The values of labels are written as they are, without escapes: a route of a service
  profile whose name has a quote in it makes the whole page unreadable
  (`C123_unescaped_refuted`), and one made for the purpose adds labels to the series
  (`C123_forged_refuted`).  The same holds of the labels that service discovery gives.
* **C124** The zone of an endpoint is part of the key but not of the text, so the page has one
  series twice for endpoints that differ only in it (`C124_zone_refuted`); so has it for
  destinations that differ only in the dot that ends a name (`C124_dot_refuted`).
* **C125** If `watch::Receiver::has_changed` is an error as soon as the sender is gone (tokio's
  documentation has said so; its source is not here, so the model has both), the last value
  before the source ends never reaches a clone that was not polled between the task's last
  send and its return (`C125_lost_refuted`).
* **C126** The timer starts at the first poll that finds the primary pending and runs while
  nobody polls: two requests that are far apart pass the primary by at once
  (`C126_gap_refuted`).
* **C127** `TrackService::drop` reads the count of references while it still holds its own: when
  the last two clones are dropped at the same time, on two threads, both read 2 and the drop is
  never counted (`C127_race_refuted`).  And the time between polls is rounded down to
  milliseconds each time, so that a service which is polled more often counts no time at all
  (`C127_rounding_refuted`).
* **C128** When the stream of spans ends, `SpanExporter::export` puts the last batch into the channel and
  returns, and `run` returns with it, without the future that would have taken it: the spans that were collected are never
  sent (`C128_last_refuted`).  A call that fails is not made again and its spans are lost
  (`C128_failed_refuted`).
* **C129** A W3C trace id of more than 16 bytes is accepted, forwarded and recorded, and then its span
  is dropped by the exporter (`C129_long_refuted`).  `Registry::send` is never called, so that the
  counters of export requests and of exported spans are always zero (`C129_counters_refuted`).
* **C130** A service which becomes ready and then fails starts a new backoff each time: an endpoint that
  accepts connections and closes them is connected to again and again after the first wait
  (`C130_flapping_refuted`).
* **C131** A path may have a quotation mark, and it is written as it is: a client can end the field of the
  request early and add fields of its own to its line (`C131_quote_refuted`).
* **C132** The id of the trace is looked for in several headers, and one that is there but is not ASCII
  hides those after it (`C132_trace_id_refuted`).
* **C133** A discovery that failed is kept like one that succeeded: as long as connections come more
  often than the idle timeout, each of them fails with the old error and no new discovery is made
  (`C133_failed_refuted`).
* **C134** A minimum above the maximum wins, also if it is the older variable that sets it
  (`C134_max_refuted`).
* **C135** Routes are equal only if they are the same in memory, so that an update which sends the same
  routes again makes all their proxies anew (`C135_anew`, `C135_kept_refuted`).
* **C136** An allowed address that is written as ::ffff:a.b.c.d allows nothing: clients' addresses are
  mapped to IPv4, but those of the set are not (`C136_mapped_refuted`).
* **C137** The outbound proxy connects to ::ffff:127.0.0.1, which is the loopback interface: the check
  knows 127.0.0.0/8 and ::1 only (`C137_loopback_refuted`).
* **C138** The policy's `penalty_decay` has no effect; a penalty fades with the decay of round trip
  times (`C138_penalty_decay`, `C138_fades_refuted`). The code says so.
  A penalty below a millisecond is none (`C138_small_refuted`).
* **C139** The bytes that are counted by zone are those within TLS, without its overhead and without
  the transport header; the metric's help says that it is the data "transferred in and out of this proxy".
* **C142** The query of a URL is exported in full, in two labels, whatever secrets it has
  (`C142_query_refuted`). A request that names its server in `:authority` only, as HTTP/2 requests do,
  has no `server.address`: the code looks for a header of that name, which there cannot be
  (`C142_address_refuted`). A request that fails or is cancelled has no span (`C142_failed_refuted`).
* **C143** A connection that is terminated because its policy changed reads the policy again, for its
  name, while it still holds the reference of the check: the temporary of the `if let` of
  policy/tcp.rs:161 lives to the end of the block. So does a request over the rate limit
  (policy/http.rs:332-344, a tail expression). If another thread updates the policy between the two
  reads, both wait forever, as `tokio`'s documentation of `borrow` warns, and so does every later
  connection and request on that port (`C143_deadlock_refuted`, `C143_forever`).
* **C144** A denied connection or request, and one without a route, is counted after its check, and the
  name of the policy is read again for that: if the policy changes in between, the denial is counted
  under the new policy's name, which may well allow it (`C144_name_refuted`,
  `C144_connection_name_refuted`). So is an allowed request, but not an allowed connection. Terminated
  connections and requests over the limit are counted under the right name only because the
  reference is held, which is what C143 is about.
* **C145** The task of a log stream notices that its client has gone only when it sends: a stream whose filter
  lets nothing pass stays, with its filter asked at every event, however long its client has been away
  (`C145_hang_up_refuted`, and `C145_quiet` for all such histories). The report of lost lines ends without
  a newline, so what follows it is on the same line, and the response is not one object per line
  (`C145_one_line_refuted`).
* **C146** The settings of HTTP/2 are not checked where they are read: a frame size that the protocol does not allow,
  or a send buffer above `u32::MAX`, from the environment or from the control plane, is accepted and then every
  connection with it panics (`C146_usable_refuted`; `C146_endpoint` and `C146_accepted` say exactly when). A server
  whose environment sets no limit to concurrent streams passes `None` to hyper, which lifts hyper's own limit of 200
  (`C146_limited_refuted`). Both rest on what hyper documents of its builders: the library is not in /repo.
* **C147** The name of a control plane may end in a dot: the configuration is accepted, but certificates' names are
  read without one, so that no server can ever prove to have it (`C147_reachable_refuted`, `C147_dotted` for all
  such names). The queue that is configured for control clients (100 requests; the failfast timeout of the proxy, or 10
  seconds) is not read: they have 1,000 and 30 seconds (`C147_queue_refuted`).
* **C148** The limit on requests is none on responses whose bodies go on (`C148_bodies_refuted`, for any number). Requests
  that a route redirects as configured, and those over a rate limit, count as `unexpected` in `inbound_http_errors_total`
  although they are answered as they should be (`C148_policy_refuted`); timeouts that a policy sets count as `unexpected`,
  not as `response timeout`, in `outbound_http_errors_total` (`C148_timeout_refuted`).
* **C149** Without a service profile the outbound proxy passes the application's own `l5d-dst-canonical` header on, and the
  peer's proxy asks for the profile of the service that it names, and counts the request for it
  (`C149_forged_refuted`); with a profile, or an authority that the endpoint requires, it cannot
  (`C149_agreed`, `C149_overridden`).
* **C150** `LINKERD2_PROXY_LOG=off` also switches off the access log, which is written elsewhere and configured by its own
  variable (`C150_access_refuted`).  After a million seconds (11.6 days) the times of lines are a character longer, and no longer
  sort as texts (`C150_order_refuted`).
* **C151** An error of h2 that has no reason (one of its user) is not downgraded: an HTTP/1 application whose request was upgraded
  has its connection closed without an answer (`C151_ends_refuted`), although orig_proto.rs:170-172 says that HTTP/2 errors
  can only be met by HTTP/2 requests; with a reason it is answered (`C151_upgraded`).
* **C152** If building the inner service panics once, the shared state stays `Invalid`, and every later poll of every clone reaches
  `unreachable!` (`C152_broken`, `C152_unreachable_refuted`).  Nothing in the proxy uses `NewLazy` at this commit.

## Print Assumptions

The 936 theorems of `MANIFEST.json`, with what `Print Assumptions` lists.  All axioms are
of the standard library.

* **`ClassicalDedekindReals.sig_forall_dec`, `ClassicalDedekindReals.sig_not_dec`, `Classical_Prop.classic`, `FunctionalExtensionality.functional_extensionality_dep`**: C09_within_observed, C09_peak_not_below_sample, C09_projection_bounds, C09_projection_decreases, C18_history, C33_at_most_once, C33_once, C33_failure, C33_overloaded, C33_broken, C33_elapsed, C33_load, C33_estimate, C33_in_flight, C95_http, C95_grpc, C95_tls, C96_accepted, C96_accrual, C97_backends, C97_namespaces_refuted, C97_http_cached, C97_opaque_cached, C97_tls_cached, C98_builds, C98_zero_weights_refuted, C98_destination_refuted, C98_refused, C99_range, C99_nearest, C99_round_trip, C99_trips, C99_positive_refuted, C138_broken, C138_overloaded, C138_fades_partial, C138_fades_refuted, C138_small_refuted, C141_consecutive, C141_unified, C141_jitter, C141_absent
* **`ClassicalDedekindReals.sig_forall_dec`, `ClassicalDedekindReals.sig_not_dec`, `FunctionalExtensionality.functional_extensionality_dep`**: C09_finite_after_sample, C09_finite_after_peak, C09_stale_sample_ignored, C09_stale_after_peak_refuted, C09_decay_by_elapsed_time, C33_not_before, C33_error_refuted, C138_fresh
* **Closed under the global context**: C01_http_lookup_first_best, C01_http_lookup_none, C01_grpc_lookup_first_best, C01_grpc_lookup_none, C02_exact_host, C02_wildcard_host, C02_wildcard_rejects_bare_name, C02_host_rank, C03_prefix_segments, C03_http_match, C04_precedence_partial, C04_exact_beats_prefix_refuted, C05_grpc_match, C05_grpc_post_only, C05_grpc_rank, C05_grpc_specific_wins, C05_grpc_exact_path_refuted, C06_modify_header, C07_redirect_sound, C07_redirect_none_means_there_already, C07_redirect_panics_only_without_path, C07_redirect_total_refuted, C07_replace_prefix_with_root_refuted, C08_delay_bounds, C08_delays_grow, C08_stream, C08_no_panic_partial, C08_no_panic_refuted, C08_reaches_max_refuted, C10_header_round_trip, C10_header_round_trip_any_prefix, C10_written_with_preface, C10_no_preface_nothing_consumed, C10_independent_of_segmentation, C10_accepted_is_valid, C10_unknown_fields, C11_reads_replay_prefix, C11_prefix_first, C11_end_only_at_end, C11_peek, C12_replay_same_body, C12_capped_only_if_exceeded, C12_refused_after_limit, C12_reads_come_to_an_end, C12_unread_replay_refuted, C13_buffer_bounded, C13_exceeding_discards, C13_exceeding_reported, C13_capped_for_ever, C14_at_most_limit, C14_only_if_retryable, C14_last_answer, C14_retried_when_allowed, C14_same_request, C14_same_body, C14_not_beyond_buffer, C14_metrics, C14_no_panic_partial, C14_policy_responses, C14_policy_errors, C14_attempt_extensions, C14_duplicated_body_refuted, C14_no_panic_refuted, C14_last_answer_refuted, C15_durations, C15_http_conditions, C15_grpc_conditions, C15_items_exist, C15_headers_removed, C15_not_allowed, C15_configuration, C16_history, C16_clients, C16_clients_now, C17_totals, C17_reset, C17_plain_counts, C17_recent_counts, C17_old_does_not_count, C19_probe_decides_refuted, C19_probe_decides_partial, C20_retry_after, C20_pushback, C20_capped, C21_once, C21_limited, C21_limited_total, C21_shut, C21_shut_total, C21_open_admits, C21_limited_admits, C22_fails_only, C22_answers, C22_gate, C22_recovers, C22_forwards, C22_fails_after, C22_gate_reopens_refuted, C23_exact, C23_latest, C23_sent, C23_removed, C23_rebuilt, C23_gauge, C23_pick, C23_pairs, C23_distinct, C23_idle, C23_no_panic, C23_call, C23_stale_refuted, C23_duplicate_refuted, C24_fifo, C24_answered, C24_failfast, C24_gate, C24_terminal, C24_told, C24_no_panic, C24_length, C24_told_refuted, C25_gauges, C25_zero, C26_no_panic, C26_same, C26_permanent, C26_own, C26_unheld, C26_idle_partial, C26_idle_refuted, C26_no_leak, C27_service, C27_sent, C27_first, C27_random, C27_draw, C27_share, C27_made, C27_route, C27_single_refuted, C27_panics_refuted, C28_authorized, C28_first, C28_ip_match, C28_suffix, C28_mapped, C28_listed_refuted, C29_log, C29_revoked, C30_verdict, C30_one, C30_forwarded, C31_outcomes, C31_shared, C31_total, C31_bucket, C31_independent, C31_gcra, C31_per_second_refuted, C31_rejected_uses_total_refuted, C32_steady_partial, C32_panics, C32_refuted, C34_no_crash_refuted, C34_crash_iff_empty_flags, C35_w3c_header_understood, C35_grpc_header_understood, C35_b3_headers_understood, C35_forwarded_context_linked, C35_other_headers_untouched, C35_only_own_header_rewritten, C35_untouched_without_context, C35_missing_trace_id_refuted, C36_headers, C36_headers_partial, C36_end_refuted, C36_earliest, C36_body, C36_request, C36_request_ready, C36_response_ready, C36_body_ready, C37_only, C38_http_detection_keeps_bytes, C38_tls_detection_keeps_bytes, C38_tls_then_http_keeps_bytes, C38_http_detection_decision, C39_answer_is_stable, C39_answer_independent_of_segmentation, C39_answer_of_stream, C40_bounded_buffering_refuted, C40_decided_early_or_never, C41_accepted_iff_valid, C41_case_insensitive, C41_reparse, C42_suffix_contains, C42_name_match, C43_round_trip, C43_accepts_iff, C44_current, C44_kept, C44_lost, C44_nothing, C44_paced, C44_same_backoff, C44_new_backoff, C45_new, C45_buckets, C45_report, C45_latencies, C45_concurrent, C45_ms, C45_us, C45_wrap_refuted, C46_wellformed_hello_name_found, C46_wellformed_hello_without_name, C46_no_decision_before_the_record_is_complete, C47_end_of_stream_sound, C47_empty_from_the_start, C47_advance, C47_copy_partial, C47_empty_frame_refuted, C47_size_hint_refuted, C48_same_frames, C48_prefix, C48_peeked_iff, C48_end_of_stream, C48_size_hint, C48_hint_exact, C48_end_known, C49_tries_again, C49_recovers_refuted, C50_classifier, C50_one_class, C50_class_unique, C50_failed, C50_at_most_one, C50_dropped, C50_missing_status_refuted, C51_localhost, C51_exactly, C52_exactly, C52_kept, C52_gone, C52_found, C52_router, C52_router_total, C52_router_built, C53_requests, C53_responses, C53_latencies, C53_settled, C53_outcome_kept, C53_wait_kept, C53_cancelled, C53_updated, C54_opened, C54_open, C54_closed, C54_bytes, C54_dropped, C54_once, C54_updated, C54_all_bytes_refuted, C55_reported, C55_in_use, C55_lossless, C56_history, C56_address, C56_distinct, C56_port_refuted, C56_metadata, C56_order, C56_identity_refuted, C56_no_empty, C56_h2_override, C57_plaintext, C57_plaintext_direct, C57_tls, C57_address, C57_header, C57_gateway_refuted, C57_discovered, C57_client, C57_session, C57_forward, C58_enforced, C58_refused, C58_stripped, C58_absent, C58_invalid_refuted, C58_second_refuted, C59_served, C59_policy, C59_end_to_end, C60_round_trip, C60_response, C60_end_to_end, C60_form, C60_claimed_refuted, C60_retried_refuted, C61_stripped, C61_request, C61_response, C61_tunnel, C61_once, C61_second_refuted, C61_connect_refuted, C61_h2c_refuted, C61_retried_refuted, C62_set, C62_override, C62_kept, C62_normalized, C62_served, C62_scheme_refuted, C62_claimed_refuted, C63_answer, C63_pod, C63_fixed, C63_mixed_refuted, C63_empty_refuted, C64_refresh, C64_negative_ttl, C64_retry, C64_paced, C64_order, C64_goes_on, C64_later_refuted, C64_spaced_refuted, C65_decided, C65_answered, C65_passed, C65_location, C65_well_formed, C65_private, C65_told, C65_failure, C65_injected_grpc_refuted, C65_injected_inbound_refuted, C65_gateway_refuted, C65_http1_refuted, C66_body, C66_rescued, C66_passed, C66_unchanged, C66_end, C67_headers, C67_end_to_end, C68_latest, C68_over, C68_back, C68_codes, C68_paced, C68_backoff, C68_reset, C68_hot_refuted, C68_unread_refuted, C69_item, C69_error, C69_timeout, C69_end, C69_items, C69_initial_refuted, C70_policy, C70_own, C70_shared, C70_kept, C70_starts, C70_forgets_refuted, C71_known, C71_connections, C71_requests, C71_opaque, C71_invalid, C71_internal_refuted, C71_authenticated_refuted, C71_audit_refuted, C72_same, C72_hash, C72_labels, C72_named, C72_round, C72_audit_refuted, C73_accepted, C73_refused, C73_becomes, C73_connections, C73_loopback, C73_admits, C73_forwards, C74_taken, C74_plain, C74_open_refuted, C75_whole, C75_alternatives, C75_literal, C75_alternatives_refuted, C75_escaped_refuted, C75_repeated_refuted, C76_budget, C76_route, C76_status_refuted, C77_targets, C77_goes, C77_backends, C77_fails, C77_fails_refuted, C77_overrides, C78_forwarded, C78_buffered, C78_only_failures, C78_budget, C78_bounded, C78_same_request, C78_same_body, C78_not_beyond_buffer, C78_duplicated_body_refuted, C78_last_answer_refuted, C79_discovered, C79_ingress, C79_rejected, C79_not_allowed, C79_original, C79_endpoint, C79_ingress_profile, C80_current, C80_in_order, C80_ignored, C81_opaque, C81_http, C81_tls, C81_not_looked_at, C81_profile_stays, C81_policy_stays, C81_tls_stays, C81_breaks, C81_breaks_stable, C81_disagreement_refuted, C81_changed_refuted, C82_divided, C82_policy, C82_service, C83_named, C83_original, C83_malformed_refuted, C83_required, C83_served, C83_not_http, C83_fallback_refuted, C84_duration, C84_duration_exact, C84_duration_refuted, C84_duration_refused, C84_duration_opt, C84_bool, C84_number, C84_ports, C84_suffixes, C84_networks, C84_ips, C84_address, C84_socket, C84_sockets, C84_identity, C85_durations, C85_numbers, C85_bools, C85_others, C85_http2, C85_ports, C85_accepted, C85_listen_addr_refuted, C85_window_refuted, C85_max_idle_refuted, C86_clients, C86_plaintext, C86_trace, C87_identity, C87_spire_backoff_refuted, C88_limits, C88_backoffs, C88_sane, C89_attributes, C90_bytes, C90_order, C91_half_close, C92_done, C92_all, C92_waits, C92_fails, C92_ends, C92_fair_refuted, C93_flush_partial, C93_resumed, C93_flush_refuted, C94_first_best, C94_none, C94_name, C94_wildcard, C94_case_partial, C94_case_refuted, C95_match, C95_match_grpc, C96_retry_statuses, C96_retry_codes, C97_http_router, C97_grpc_router, C97_opaque_router, C97_tls_router, C97_cached, C98_invalid, C98_invalid_builds, C100_client, C100_plaintext, C100_server, C100_refuses, C100_routes, C100_peers, C100_own_identity_refuted, C101_good, C101_refused, C101_latest, C101_ready, C101_before, C101_counted, C101_given, C102_delay, C102_renews, C102_kept, C102_next, C102_always_valid, C102_expires_refuted, C102_panic_refuted, C102_panics, C103_source, C103_current, C103_progress, C103_read, C103_svid, C103_each, C103_lost_refuted, C104_discovered, C104_invalid, C104_failed, C104_asked, C104_none, C104_request, C104_client, C104_connection, C105_loop, C105_marked, C105_once, C105_bounded, C105_joined_refuted, C105_equals_refuted, C106_headers, C106_no_panic, C106_follow, C106_policy_unused, C106_opaque, C106_endpoint, C106_no_endpoint, C106_opaque_panic_refuted, C107_local, C107_changes, C107_forbidden, C107_shutdown, C107_shutdown_kept, C107_level, C107_set, C107_level_told, C107_level_answer, C107_shutdown_answer, C107_receiver, C107_whole_body_refuted, C108_ready, C108_ready_forever, C108_live, C108_logs, C108_metrics, C108_gzip_refuted, C108_environment, C108_variables, C108_environment_iff, C108_private_refuted, C108_accept_refuted, C108_unknown, C108_policy, C108_changes, C108_http, C109_certified_first, C109_serves, C109_admin, C109_tap, C109_tap_configured, C109_ready, C109_spire_ready_refuted, C109_stopped, C109_no_new_refuted, C110_asked, C110_graceful, C110_graceful_stopped, C110_forced, C110_deadline, C110_can_end, C110_uncertified, C110_idle_refuted, C110_tap_refuted, C111_selects, C111_accepts, C111_observe, C111_empty_refuted, C111_networks_refuted, C111_scheme_case_refuted, C112_first, C112_order, C112_complete, C112_room, C112_private, C112_counts, C112_ended, C112_stays_ended, C112_ends, C112_cancelled_refuted, C112_aborted_refuted, C112_limit_refuted, C113_offered, C113_clean_refuted, C113_permitted, C114_identity, C114_proved, C114_dns, C114_rest, C114_hop_refuted, C115_authorized, C115_shown, C115_refused, C115_not_panics, C115_lookup, C115_version, C115_host_partial, C115_host_refuted, C115_forged_refuted, C116_http_none, C116_grpc_none, C116_http, C116_grpc, C116_http_chosen, C116_grpc_chosen, C116_injected, C116_built, C117_http, C117_grpc, C117_no_overflow, C117_kept_refuted, C117_settings_http, C117_settings_grpc, C118_error, C118_labels, C118_code, C118_trailers_refuted, C118_hostname, C118_text, C118_text_grpc_partial, C118_text_grpc_refuted, C119_statuses, C119_request_seconds, C119_response_seconds, C119_requests, C119_frames, C119_end, C119_abandoned_refuted, C120_filtered, C120_shed, C120_backend, C120_reaches, C120_one, C120_none, C120_why, C120_named, C120_built_opaque, C120_built_tls, C120_ends, C120_goes_on, C121_opened, C121_closed, C121_each, C121_dropped_refuted, C121_text_partial, C121_text_refuted, C121_namespace_refuted, C121_shared_refuted, C122_failed, C122_closed, C122_outbound, C122_inbound, C122_error_text, C122_closed_text, C122_timeout_refuted, C123_read_partial, C123_grouped, C123_unescaped_refuted, C123_forged_refuted, C124_once_partial, C124_zone_refuted, C124_dot_refuted, C125_latest, C125_lost_refuted, C125_settles, C125_forward, C125_steady, C125_cloned, C126_primary, C126_secondary, C126_total, C126_no_panic, C126_requests, C126_gap_refuted, C127_polls, C127_dropped_partial, C127_not_too_many, C127_race_refuted, C127_millis, C127_waits, C127_rounding_refuted, C128_in_order, C128_batches, C128_timely, C128_not_sooner, C128_last_refuted, C128_failed_refuted, C129_converted, C129_exported, C129_long_refuted, C129_counters_refuted, C130_ready, C130_after_a_wait, C130_backs_off, C130_errors, C130_returns, C130_timer, C130_flapping_refuted, C131_lines, C131_off, C131_quote_refuted, C132_format, C132_objects, C132_processing, C132_trace_id_refuted, C133_own_answer, C133_shared, C133_one_lookup, C133_evicted, C133_anew, C133_failed_refuted, C134_number, C134_within, C134_scheduler, C134_max_refuted, C135_in_use, C135_route, C135_first, C135_live, C135_kept_partial, C135_anew, C135_kept_refuted, C136_each, C136_given, C136_same_client, C136_way, C136_live, C136_errors, C136_mapped_refuted, C137_outbound, C137_limit, C137_loopback_partial, C137_loopback_refuted, C137_inbound, C137_inbound_limit, C137_loop, C138_chosen, C138_penalty_decay, C139_bytes, C139_series, C139_once, C139_zone, C140_same, C140_one, C140_own, C140_through, C140_freed, C142_labels, C142_distinct, C142_credentials, C142_host_credentials, C142_other_headers, C142_spans, C142_sent, C142_not_sent, C142_bounded, C142_query_refuted, C142_address_refuted, C142_failed_refuted, C143_no_deadlock_partial, C143_finishes_partial, C143_no_updates, C143_deadlock_refuted, C143_forever, C143_only_way, C144_counters, C144_increments, C144_series, C144_connections, C144_requests, C144_connection_totals, C144_terminate_total, C144_request_totals, C144_limited_total, C144_monotone, C144_answers, C144_check, C144_published, C144_name_partial, C144_name_refuted, C144_connection_name_refuted, C145_lines, C145_accounted, C145_room, C145_bounded, C145_alone, C145_registered, C145_idle, C145_hang_up_partial, C145_quiet, C145_hang_up_refuted, C145_report, C145_one_line_refuted, C146_endpoint, C146_accepted, C146_local, C146_unset, C146_limited_refuted, C146_usable_refuted, C147_plaintext, C147_authenticated, C147_connects, C147_addresses, C147_origin, C147_authority, C147_dotted, C147_reachable_refuted, C147_queue_refuted, C148_limit, C148_answers, C148_once, C148_settled, C148_shed, C148_counted, C148_bodies_refuted, C148_policy_refuted, C148_timeout_refuted, C149_override, C149_canonical, C149_agreed, C149_overridden, C149_forged_refuted, C150_settings, C150_access, C150_access_refuted, C150_says, C150_order, C150_order_refuted, C151_upgraded, C151_table, C151_inbound, C151_two_proxies, C151_ends, C151_ends_refuted, C151_bodies, C151_body_reset, C152_once, C152_lazily, C152_ready, C152_broken, C152_unreachable_refuted
