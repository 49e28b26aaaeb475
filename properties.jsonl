{"id": "C01", "title": "ZERA round trip", "statement": "serialize<Zera>(v) followed by Zera::Deserializer on the returned bytes shows exactly v through the whole Reader API: every is*() predicate, every as*() accessor, arraySize, operator[] by index and by key (first entry for a repeated key), contains and mapKeys, at every depth; accessors of another type, indices past the end and absent keys throw DeserializationError.", "quantifier": "every value tree (null, bool, int64, uint64, double bit pattern, byte string, blob, array, string-keyed map) of any size and depth that fits the 4 GiB / 64 KiB-key limits of the format", "why_tests_cant": "The set of value trees, nestings and string/blob lengths is infinite; offset arithmetic and inline/arena selection interact with every prefix already written.", "anchors": ["include/zerialize/protocols/zera.hpp: Serializer, RootSerializer::finish, deliver_vr, arena_alloc, ZeraViewBase, ZeraDeserializer::init_from"]}
{"id": "C02", "title": "ZERA serialization fails exactly on the documented limits", "statement": "serialize<Zera>(v) throws SerializationError if some map key is longer than 65535 bytes or the message does not fit 32-bit envelope/arena offsets, and otherwise succeeds; it never fails for any other reason and never returns a buffer for an over-limit value.", "quantifier": "every value tree, with the exact envelope and arena sizes computed from ZERA.md's layout rules", "why_tests_cant": "The failing inputs are multi-gigabyte values no unit test allocates, and 'no other failure' quantifies over all values.", "anchors": ["include/zerialize/protocols/zera.hpp: RootSerializer::finish, append_env_payload, arena_alloc, Serializer::key/string/binary"]}
{"id": "C03", "title": "ZERA writer accepts exactly well-formed call sequences", "statement": "For every sequence of Writer calls (with exceptions caught and the writer used further), finish() returns a buffer only when no container is open, and the buffer then reads back as the first complete root value those calls described (null if none); values without key, keys without value, mismatched ends, second roots and unterminated containers throw SerializationError.", "quantifier": "every finite sequence of null/boolean/int64/uint64/double_/string/binary/key/begin_array/end_array/begin_map/end_map calls, legal or not", "why_tests_cant": "The call histories are unbounded; tests only drive the writer through well-formed builders.", "anchors": ["include/zerialize/protocols/zera.hpp: RootSerializer::deliver_vr, write_root_vr, finish; Serializer::*"]}
{"id": "C04", "title": "ZERA message layout", "statement": "Every finished ZERA message has the documented header (magic, version 1, flags 1, root_ofs, env_size, arena_ofs), root_ofs + 16 <= env_size, arena_ofs is the least multiple of 16 that is >= 20 + env_size, the padding is zero and the total length is arena_ofs plus the arena length.", "quantifier": "every successfully finished writer history", "why_tests_cant": "Alignment and padding depend on every byte length written before.", "anchors": ["include/zerialize/protocols/zera.hpp: RootSerializer::finish, align_up; include/zerialize/protocols/ZERA.md"]}
{"id": "C05", "title": "ZERA blobs are 16-byte aligned in the message", "statement": "Every blob read from a message written by serialize<Zera> starts at a message offset that is a multiple of 16, so on a 16-byte aligned buffer it is aligned for every tensor element type and tensor views are zero-copy.", "quantifier": "every value tree and every blob at any position in it", "why_tests_cant": "The offset of a blob depends on the lengths of all strings and blobs before it.", "anchors": ["include/zerialize/protocols/zera.hpp: arena_alloc, Serializer::binary, ZeraViewBase::asBlob", "include/zerialize/tensor/xtensor.hpp: asXTensorView"]}
{"id": "C06", "title": "ZERA reader is memory safe on arbitrary bytes", "statement": "On any byte buffer, constructing Zera::Deserializer and calling any Reader operation on it or on any value reached from it either returns (with string/blob views lying inside the buffer) or throws DeserializationError; no byte outside the buffer is ever read.", "quantifier": "every byte string as input and every chain of subscript operations", "why_tests_cant": "Adversarial inputs are unbounded; a fuzzer only samples them.", "anchors": ["include/zerialize/protocols/zera.hpp: ZeraViewBase::*, KeysView::iterator::operator*/++, ZeraDeserializer::init_from"]}
{"id": "C07", "title": "Reading ZERA terminates on arbitrary bytes", "statement": "Every Reader operation, key iteration, and translate of a ZERA value terminates for any byte buffer.", "quantifier": "every byte string as input", "why_tests_cant": "Termination over all inputs cannot be observed by finitely many runs.", "anchors": ["include/zerialize/protocols/zera.hpp: contains, operator[], KeysView", "include/zerialize/translate.hpp: write_value"]}
{"id": "C08", "title": "ZERA header validation", "statement": "Zera::Deserializer rejects (DeserializationError) every buffer that violates a documented header invariant: length >= 20, magic, version, flags, arena_ofs multiple of 16 and within the buffer, arena_ofs >= 20 + env_size, root ValueRef inside the envelope; and accepts every buffer that satisfies them.", "quantifier": "every byte string", "why_tests_cant": "Header space is 2^160; boundary combinations matter.", "anchors": ["include/zerialize/protocols/zera.hpp: parse_header, ZeraDeserializer::init_from; include/zerialize/protocols/ZERA.md"]}
{"id": "C09", "title": "ZERA map lookups agree", "statement": "For a map value, contains(k) is true iff operator[](k) succeeds iff k is among mapKeys(), and operator[](k) throws DeserializationError otherwise.", "quantifier": "every key byte string, every map in every written message; and every arbitrary buffer", "why_tests_cant": "Quantifies over all keys and all buffers.", "anchors": ["include/zerialize/protocols/zera.hpp: contains, operator[](string_view), mapKeys"]}
{"id": "C10", "title": "ZERA array indexing agrees with arraySize", "statement": "If arraySize() returns n then v[i] succeeds for every i < n, distinct indices denote distinct element slots, and v[i] throws DeserializationError for i >= n.", "quantifier": "every array value of every buffer (written or arbitrary) and every size_t index", "why_tests_cant": "Indices range over 2^64 values, buffers are arbitrary.", "anchors": ["include/zerialize/protocols/zera.hpp: arraySize, operator[](size_t)"]}
{"id": "C11", "title": "ZERA integer accessors never change the number", "statement": "asInt8..asInt64 and asUInt8..asUInt64 return the stored integer whenever it is representable in the requested type and throw DeserializationError otherwise.", "quantifier": "every 64-bit pattern, both integer tags, every accessor, every buffer", "why_tests_cant": "2^64 payloads times eight accessors.", "anchors": ["include/zerialize/protocols/zera.hpp: asInt64, asUInt64, asInt8.."]}
{"id": "C12", "title": "Inline-string threshold does not affect what is read", "statement": "set_inline_string_threshold(t) with t <= 12 changes only the encoding: the message still reads back as the same value; t > 12 throws SerializationError and leaves the writer usable.", "quantifier": "every threshold and every value tree", "why_tests_cant": "All thresholds times all trees.", "anchors": ["include/zerialize/protocols/zera.hpp: set_inline_string_threshold, Serializer::string"]}
{"id": "C13", "title": "MessagePack round trip", "statement": "serialize<MsgPack>(v) followed by MsgPack::Deserializer shows v: null/bool/double/string/blob/array/map exactly, integers with their exact mathematical value through the accessor of their sign, first entry for repeated keys; mismatched accessors, bad indices and absent keys throw DeserializationError.", "quantifier": "every value tree with container/string lengths below 2^32", "why_tests_cant": "Infinite set of trees; every length class (fix/8/16/32) at every nesting position.", "anchors": ["include/zerialize/protocols/msgpack.hpp: MsgPackSerializer, MsgPackDeserializer, mp_skip"]}
{"id": "C14", "title": "MessagePack element skipping is exact", "statement": "Skipping an element inside any buffer advances by exactly the number of bytes the element's encoding occupies, regardless of what follows, so v[i] and v[key] land on the right element.", "quantifier": "every encoded value followed by any bytes", "why_tests_cant": "All values and all suffixes.", "anchors": ["include/zerialize/protocols/msgpack.hpp: mp_skip, operator[]"]}
{"id": "C15", "title": "MessagePack integer accessors never change the number", "statement": "asInt64/asUInt64 and the narrow accessors return the stored integer or throw; they never return a different number.", "quantifier": "every integer encoding and accessor", "why_tests_cant": "2^64 payloads, all encodings.", "anchors": ["include/zerialize/protocols/msgpack.hpp: asInt64, asUInt64, asInt8.."]}
{"id": "C16", "title": "MessagePack reader is memory safe on arbitrary bytes", "statement": "On any byte buffer every Reader operation returns views inside the buffer or throws DeserializationError; no out-of-bounds read and no span precondition violation.", "quantifier": "every byte string as input", "why_tests_cant": "Adversarial inputs are unbounded.", "anchors": ["include/zerialize/protocols/msgpack.hpp: mp_skip, str_info, bin_info, arr_info, map_info, operator[], asStringView, asBlob"]}
{"id": "C17", "title": "MessagePack skipping terminates and always advances", "statement": "Skipping any element terminates on every byte string and, when it succeeds, advances by at least one byte.", "quantifier": "every byte string", "why_tests_cant": "Termination/progress for all inputs.", "anchors": ["include/zerialize/protocols/msgpack.hpp: mp_skip"]}
{"id": "C18", "title": "CBOR round trip", "statement": "serialize<CBOR>(v) followed by CBOR::Deserializer shows v: same observations as C13 (integers by value, doubles bit-exact including the float32-shortened ones).", "quantifier": "every value tree", "why_tests_cant": "Infinite set of trees and length classes.", "anchors": ["include/zerialize/protocols/cbor.hpp: Serializer, CborDeserializer"]}
{"id": "C19", "title": "CBOR skipping is exact on well-formed CBOR", "statement": "Skipping any well-formed CBOR item (definite or indefinite strings, arrays, maps, tags, simple values, floats) advances exactly past it.", "quantifier": "every well-formed CBOR data item followed by any bytes", "why_tests_cant": "Infinite family of items, including ones the library's own writer never emits.", "anchors": ["include/zerialize/protocols/cbor.hpp: read_head, skip, KeysView::iterator::skip"]}
{"id": "C20", "title": "CBOR reader is memory safe on arbitrary bytes", "statement": "On any byte buffer every Reader operation returns views inside the buffer or throws DeserializationError; no out-of-bounds read.", "quantifier": "every byte string as input", "why_tests_cant": "Adversarial inputs are unbounded.", "anchors": ["include/zerialize/protocols/cbor.hpp: asDouble, contains, asStringView, asBlob, skip, KeysView"]}
{"id": "C21", "title": "CBOR reading terminates on arbitrary bytes", "statement": "Every Reader operation terminates on every byte string.", "quantifier": "every byte string", "why_tests_cant": "Termination for all inputs.", "anchors": ["include/zerialize/protocols/cbor.hpp: skip, arraySize, operator[], asString"]}
{"id": "C22", "title": "CBOR indefinite-length maps enumerate their keys", "statement": "For every well-formed CBOR map, definite or indefinite length, mapKeys() enumerates exactly the keys, consistently with contains and operator[].", "quantifier": "every list of string keys and values, both map encodings", "why_tests_cant": "All maps; the library's own writer only produces definite ones.", "anchors": ["include/zerialize/protocols/cbor.hpp: KeysView::begin/end/operator++, contains, operator[]"]}
{"id": "C23", "title": "CBOR integer accessors never change the number", "statement": "asInt64/asUInt64 and narrow accessors return the stored integer or throw.", "quantifier": "every head value of major type 0 and 1", "why_tests_cant": "2^64 payloads.", "anchors": ["include/zerialize/protocols/cbor.hpp: asInt64, asUInt64, asInt8.."]}
{"id": "C24", "title": "CBOR half-precision floats decode exactly", "statement": "asDouble() on a half-precision item returns exactly the IEEE 754 binary16 value, for every bit pattern.", "quantifier": "all 65536 half-precision bit patterns", "why_tests_cant": "Needs the exact numeric value of every pattern incl. subnormals, not an approximation.", "anchors": ["include/zerialize/protocols/cbor.hpp: decode_f16, asDouble"]}
{"id": "C25", "title": "base64 round trip", "statement": "base64Decode(base64Encode(b)) == b.", "quantifier": "every byte string of any length", "why_tests_cant": "Infinite inputs.", "anchors": ["include/zerialize/internals/base64.hpp: base64Encode, base64Decode"]}
{"id": "C26", "title": "base64 output form", "statement": "base64Encode(b) has length 4*ceil(n/3), uses only the RFC 4648 alphabet with 0..2 trailing '=' as RFC 4648 prescribes, and equals the RFC 4648 encoding.", "quantifier": "every byte string", "why_tests_cant": "Infinite inputs.", "anchors": ["include/zerialize/internals/base64.hpp: base64Encode"]}
{"id": "C27", "title": "base64 decoder rejects invalid characters", "statement": "base64Decode(s) throws DeserializationError iff a character outside the alphabet occurs before the first '=', and otherwise returns floor(6*m/8) bytes where m is the number of characters before the first '='.", "quantifier": "every character string", "why_tests_cant": "Infinite inputs.", "anchors": ["include/zerialize/internals/base64.hpp: base64Decode"]}
{"id": "C28", "title": "JSON round trip", "statement": "serialize<JSON>(v) read back with JSON::Deserializer shows v (blobs included) for every tree with finite doubles and arbitrary string keys.", "quantifier": "every value tree", "why_tests_cant": "Infinite set of trees, keys include empty and NUL-containing ones.", "anchors": ["include/zerialize/protocols/json.hpp: Serializer, RootSerializer, JsonDeserializer"]}
{"id": "C29", "title": "JSON blob encoding is unambiguous", "statement": "A JSON value reports isBlob() only if it was written as a blob; arrays written as arrays read back as arrays through translate.", "quantifier": "every value tree", "why_tests_cant": "Quantifies over all user arrays, including those shaped like the blob convention.", "anchors": ["include/zerialize/protocols/json.hpp: isBlob, asBlob, Serializer::binary", "include/zerialize/translate.hpp: write_value"]}
{"id": "C30", "title": "JSON integer accessors never change the number", "statement": "asInt8..asUInt64 return the stored integer or throw DeserializationError.", "quantifier": "every integer and accessor", "why_tests_cant": "2^64 payloads.", "anchors": ["include/zerialize/protocols/json.hpp: asInt8.., asUInt64"]}
{"id": "C31", "title": "JSON writer accepts exactly well-formed call sequences", "statement": "Misuse of the JSON writer (value without key, dangling key, mismatched ends, second root) is reported by an exception for every call sequence; otherwise finish() yields the described value.", "quantifier": "every finite sequence of writer calls", "why_tests_cant": "Unbounded call histories.", "anchors": ["include/zerialize/protocols/json.hpp: push_value, key, end_map, ensure_in"]}
{"id": "C32", "title": "FlexBuffers lookup finds exactly the present keys", "statement": "contains(k) / operator[](k) return true / the value stored under k iff k is a key of the map, and false / DeserializationError otherwise.", "quantifier": "every strictly sorted key vector of any size and every probe key", "why_tests_cant": "Binary search boundary behaviour for all sizes and keys.", "anchors": ["include/zerialize/protocols/flex.hpp: contains, operator[](string_view)"]}
{"id": "C33", "title": "FlexBuffers round trip", "statement": "serialize<Flex>(v) read back shows v with map entries in key order.", "quantifier": "every value tree with distinct NUL-free keys", "why_tests_cant": "Infinite set of trees.", "anchors": ["include/zerialize/protocols/flex.hpp: Serializer, FlexViewBase"]}
{"id": "C34", "title": "translate preserves the value", "statement": "translate<Dst>(reader of serialize<Src>(v)) reads back as v (same tree, integers by value, map order as exposed by the source reader).", "quantifier": "every pair of protocols and every value tree supported by both", "why_tests_cant": "25 protocol pairs times all trees.", "anchors": ["include/zerialize/translate.hpp: write_value, translate"]}
{"id": "C35", "title": "translate preserves large unsigned integers", "statement": "A uint64 written in any protocol is translated to any other protocol without changing its numeric value.", "quantifier": "every uint64 value and protocol pair", "why_tests_cant": "2^64 values.", "anchors": ["include/zerialize/translate.hpp: write_value", "include/zerialize/protocols/cbor.hpp: isInt/asInt64", "include/zerialize/protocols/json.hpp: isInt/asInt64"]}
{"id": "C36", "title": "translate preserves repeated map keys", "statement": "translating a map with repeated keys preserves every (key, value) entry.", "quantifier": "every map, including ones with repeated keys", "why_tests_cant": "All key lists.", "anchors": ["include/zerialize/translate.hpp: write_value"]}
{"id": "C37", "title": "Builders emit exactly one well-formed value", "statement": "zvec/zmap (nested arbitrarily, with primitives, std containers and dyn values inside) call the Writer with exactly one balanced value, announcing in begin_array/begin_map exactly the number of elements that follow.", "quantifier": "every builder expression of any nesting", "why_tests_cant": "Infinite nesting; count mismatch silently corrupts MessagePack.", "anchors": ["include/zerialize/zbuilders.hpp: zvec, zmap", "include/zerialize/internals/serializers.hpp: serialize overloads", "include/zerialize/serialize.hpp: serialize<P>"]}
{"id": "C38", "title": "Dynamic values serialize like the equivalent static builder", "statement": "serialize<P>(dyn::Value) produces byte-for-byte the same buffer as serialize<P> of the equivalent zmap/zvec expression, also when parts go through the type-erased serializable()/WriterView proxy.", "quantifier": "every dynamic value and protocol", "why_tests_cant": "Infinite set of values.", "anchors": ["include/zerialize/dynamic.hpp: serialize, WriterView, Serializable"]}
{"id": "C39", "title": "serialize<P>() with no argument yields null", "statement": "For every protocol, serialize<P>() yields a buffer that its Deserializer reads as null.", "quantifier": "every protocol", "why_tests_cant": "Holds per protocol by finish() default-root logic; paired with C03 histories.", "anchors": ["include/zerialize/serialize.hpp: serialize", "include/zerialize/protocols/zera.hpp: finish", "include/zerialize/protocols/json.hpp: finish", "include/zerialize/protocols/cbor.hpp: finish", "include/zerialize/protocols/msgpack.hpp: finish"]}
{"id": "C40", "title": "xtensor round trip through every protocol", "statement": "asXTensor<T>(serialize<P>(t)) returns the same shape and element bytes as t.", "quantifier": "every element type, rank, shape (dims < 2^32) and content; every protocol", "why_tests_cant": "Infinite shapes and contents.", "anchors": ["include/zerialize/tensor/xtensor.hpp: serialize, asXTensorView, array", "include/zerialize/tensor/utils.hpp: isTensor, tensor_shape"]}
{"id": "C41", "title": "Accepted tensors have exactly the bytes their shape requires", "statement": "asXTensorView / asEigenMatrixView accept a tensor only if the blob holds exactly product(shape) * sizeof(T) bytes, so element access stays in the blob.", "quantifier": "every shape and blob length in an arbitrary message", "why_tests_cant": "Overflowing products need shapes no test builds.", "anchors": ["include/zerialize/tensor/xtensor.hpp: checked_element_count, asXTensorView", "include/zerialize/tensor/eigen.hpp: asEigenMatrixView"]}
{"id": "C42", "title": "Zero-copy is reported truthfully", "statement": "viewInfo().zero_copy is true iff the blob is a span and its address is a multiple of alignof(T); otherwise the data is copied with the documented reason; in both cases the elements are the blob's bytes.", "quantifier": "every address, alignment and blob", "why_tests_cant": "All addresses.", "anchors": ["include/zerialize/tensor/xtensor.hpp: asXTensorView", "include/zerialize/tensor/eigen.hpp: asEigenMatrixView", "include/zerialize/tensor/view_info.hpp"]}
{"id": "C43", "title": "Tensor shapes are written losslessly", "statement": "The shape stored for a tensor equals the tensor's shape.", "quantifier": "every shape of size_t dimensions", "why_tests_cant": "Dimensions >= 2^32.", "anchors": ["include/zerialize/tensor/utils.hpp: shape_of_sizet", "include/zerialize/tensor/xtensor.hpp: serialize"]}
{"id": "C44", "title": "Eigen matrix round trip", "statement": "asEigenMatrix<T,R,C>(serialize<P>(m)) equals m element by element for every size, whatever storage order either side uses.", "quantifier": "every matrix and both storage orders", "why_tests_cant": "All sizes; tests use one 3x2 column-major matrix.", "anchors": ["include/zerialize/tensor/eigen.hpp: serialize, asEigenMatrixView, matrix"]}
{"id": "C45", "title": "ZBuffer releases each resource exactly once", "statement": "Over any history of constructing, moving, assigning and destroying ZBuffers, each adopted pointer's deleter runs exactly once, after its last owner is gone, and never while a ZBuffer still exposes it.", "quantifier": "every finite history of operations over any number of buffers", "why_tests_cant": "Unbounded histories.", "anchors": ["include/zerialize/zbuffer.hpp: constructors, move operations"]}
{"id": "C46", "title": "ZBuffer data/size stay consistent", "statement": "At every point of any history, if size() > 0 then data() is non-null and buf() is readable for size() bytes.", "quantifier": "every finite history including moves", "why_tests_cant": "Moved-from states are not exercised by tests.", "anchors": ["include/zerialize/zbuffer.hpp: size, data, buf, move"]}
{"id": "C47", "title": "ZBuffer rejects invalid construction with an exception", "statement": "Constructing with a null pointer and non-zero size or with an empty deleter throws std::invalid_argument.", "quantifier": "every pointer/size/deleter combination and pointer type", "why_tests_cant": "Exception propagation during unwinding depends on the combination.", "anchors": ["include/zerialize/zbuffer.hpp: constructors"]}
{"id": "C48", "title": "ZBuffer copies are faithful", "statement": "to_vector_copy() and to_debug_string() return exactly the buffer's bytes; empty() iff size()==0.", "quantifier": "every buffer content", "why_tests_cant": "All contents.", "anchors": ["include/zerialize/zbuffer.hpp: to_vector_copy, to_debug_string, empty"]}
{"id": "C49", "title": "hexdump is total and faithful", "statement": "hexdump(n) terminates and shows every byte of the buffer exactly once at its offset, ceil(size/n) rows.", "quantifier": "every buffer and every row width", "why_tests_cant": "Row width and size are unbounded; width 0.", "anchors": ["include/zerialize/zbuffer.hpp: hexdump"]}
{"id": "C50", "title": "Owning deserializers can be copied and moved", "statement": "After copying or moving an owning Deserializer, the new object stays valid independently of the source's lifetime.", "quantifier": "every history of construct/copy/move/destroy of owning readers", "why_tests_cant": "Histories and lifetimes are not exercised by tests.", "anchors": ["include/zerialize/protocols/msgpack.hpp: MsgPackDeserializer", "include/zerialize/protocols/cbor.hpp: CborDeserializer", "include/zerialize/protocols/zera.hpp: ZeraDeserializer"]}
{"id": "C51", "title": "Serialized output depends only on the values passed", "statement": "The bytes returned by serialize<P> depend only on argument values at the time of each writer call (strings need not outlive the call).", "quantifier": "every history of writer calls and string-storage mutations", "why_tests_cant": "Lifetime dependent.", "anchors": ["include/zerialize/protocols/json.hpp: Serializer::string (yyjson_mut_strn)", "include/zerialize/protocols/zera.hpp: Serializer::string"]}
{"id": "C52", "title": "base64 decoder rejects invalid structure", "statement": "As documented, base64Decode throws DeserializationError on text that is not the RFC 4648 encoding of some bytes (ignoring what follows the padding), and decodes every such encoding to its bytes.", "quantifier": "every character string", "why_tests_cant": "Infinite inputs; truncated and non-canonical texts.", "anchors": ["include/zerialize/internals/base64.hpp: base64Decode, lines 65-120"]}
{"id": "C53", "title": "MessagePack skipping accepts only well-formed objects", "statement": "If skipping an element of an arbitrary byte string succeeds and stays inside the view, the skipped bytes are exactly the encoding of one well-formed MessagePack object (without extension types).", "quantifier": "every byte string in which no str32/bin32 header announces 2^32-5 bytes or more, and every view into it", "why_tests_cant": "All byte strings; acceptance of any malformed nesting would have to be excluded.", "anchors": ["include/zerialize/protocols/msgpack.hpp: mp_skip"]}
{"id": "C54", "title": "CBOR single-precision floats widen exactly", "statement": "asDouble() on a single-precision CBOR item returns exactly the IEEE 754 binary32 value of its four payload bytes, subnormals, infinities and NaN included.", "quantifier": "every 32-bit pattern, at every position of every buffer", "why_tests_cant": "2^32 patterns times arbitrary context; subnormal widening is easy to get wrong.", "anchors": ["include/zerialize/protocols/cbor.hpp: asDouble, lines 260-266"]}
{"id": "C55", "title": "FlexBuffers integer accessors never change the number", "statement": "asInt8..asUInt64 on a FlexBuffers view return the stored integer or throw DeserializationError.", "quantifier": "every integer and accessor", "why_tests_cant": "2^64 payloads for eight accessors.", "anchors": ["include/zerialize/protocols/flex.hpp: asInt8 .. asUInt64"]}
{"id": "C56", "title": "FlexBuffers writer reports misuse", "statement": "Misuse of the FlexBuffers writer (unterminated container, value without key, key outside a map, mismatched end, second root) is reported by an exception; every other call sequence yields the described value.", "quantifier": "every finite sequence of writer calls, builds with and without NDEBUG", "why_tests_cant": "Unbounded call histories; some outcomes are undefined behaviour.", "anchors": ["include/zerialize/protocols/flex.hpp: RootSerializer, Serializer"]}
{"id": "C57", "title": "FlexBuffers arrays show all their elements", "statement": "On any FlexBuffers message, a view with isArray() has its number of elements as arraySize() and every element under operator[].", "quantifier": "every well-formed FlexBuffers message, typed vectors included", "why_tests_cant": "Messages from other writers; unbounded sizes.", "anchors": ["include/zerialize/protocols/flex.hpp: isArray, arraySize, operator[](size_t)"]}
{"id": "C58", "title": "Tensors are read only as the element type they were written with", "statement": "A tensor of T satisfies isTensor<T>; isTensor<U> is false and asXTensor<U>/asEigenMatrix<U> throw DeserializationError for every U != T; isTensor never throws.", "quantifier": "every pair of element types, every tensor, every protocol", "why_tests_cant": "All pairs of types, all contents and five encodings; also codes outside the table.", "anchors": ["include/zerialize/tensor/utils.hpp: tensor_dtype_index, isTensor", "include/zerialize/tensor/xtensor.hpp: asXTensorView", "include/zerialize/tensor/eigen.hpp: asEigenMatrixView"]}
{"id": "C59", "title": "Tensors survive translation", "statement": "asXTensor / asEigenMatrix of translate<Dst>(serialize<Src>(t)) returns t.", "quantifier": "every ordered pair of protocols, every element type, shape and content", "why_tests_cant": "25 protocol pairs times infinite tensors; protocols change the signedness of the dimensions.", "anchors": ["include/zerialize/translate.hpp: translate", "include/zerialize/tensor/utils.hpp: tensor_shape", "include/zerialize/tensor/xtensor.hpp: asXTensor"]}
{"id": "C60", "title": "Reading tensors from arbitrary messages", "statement": "On any message, isTensor and the tensor readers return, throw DeserializationError, or fail to allocate, if the reader underneath returns or throws DeserializationError; nothing is copied outside the allocated array.", "quantifier": "every message, element type, rank and storage order", "why_tests_cant": "All messages; needs overflowing products.", "anchors": ["include/zerialize/tensor/xtensor.hpp: asXTensorView, checked_element_count", "include/zerialize/tensor/eigen.hpp: asEigenMatrixView", "include/zerialize/tensor/utils.hpp: tensor_shape, isTensor"]}
{"id": "C61", "title": "Builders may be stored and serialized later", "statement": "zvec and zmap expressions write the value they denote, both when passed to serialize directly and when kept in a variable and serialized later: the value they denoted when they were made.", "quantifier": "every program of declarations, assignments and scope ends, every builder expression over variables and temporaries", "why_tests_cant": "Tests only pass builders directly or with arguments that happen to live; a dangling reference may read the old value by luck.", "anchors": ["include/zerialize/zbuilders.hpp: zvec, zmap, kv", "include/zerialize/serialize.hpp: serialize"]}
{"id": "C62", "title": "Serialization releases what it allocated", "statement": "When serialize<JSON> is over, by returning or by an exception, nothing it allocated is left except the returned buffer.", "quantifier": "every sequence of writer calls", "why_tests_cant": "Leaks on error paths are not observable from assertions.", "anchors": ["include/zerialize/protocols/json.hpp: RootSerializer, finish"]}
{"id": "C63", "title": "to_string describes the value", "statement": "to_string() of a reader over a serialized message returns the dump of the value that was serialized: every container entry once, in order, with its key, type and value, and two messages that print the same text hold the same value (up to blob contents, rounded doubles, and which integer call was used).", "quantifier": "all values, all protocols", "why_tests_cant": "Tests print a few documents; nested containers of different lengths, empty containers and strings containing quotes or newlines are an unbounded family.", "anchors": ["include/zerialize/protocols/msgpack.hpp: dump, esc", "include/zerialize/protocols/flex.hpp: dump_rec, json_escape", "include/zerialize/protocols/cbor.hpp: dump_rec", "include/zerialize/protocols/zera.hpp: to_string"]}
{"id": "C64", "title": "to_string is safe on untrusted messages", "statement": "On any byte buffer, to_string() of any reachable reader returns text or throws DeserializationError; it never reads outside the buffer.", "quantifier": "all buffers, all reachable views", "why_tests_cant": "Malformed buffers are an infinite family and an over-read is usually silent.", "anchors": ["include/zerialize/protocols/msgpack.hpp: dump", "include/zerialize/protocols/cbor.hpp: dump_rec", "include/zerialize/protocols/zera.hpp: to_string"]}
{"id": "C65", "title": "finish() twice, and writing after finish()", "statement": "Once finish() has returned a message, a second finish() on the same root serializer returns the same message or throws, and a second value written after it is either returned by the next finish() or refused by an exception.", "quantifier": "every history of writer calls before, between and after the two finish() calls; all protocols", "why_tests_cant": "Tests finish each serializer once; the claim is about all histories.", "anchors": ["include/zerialize/protocols/zera.hpp: finish, write_root_vr", "include/zerialize/protocols/json.hpp: finish", "include/zerialize/protocols/msgpack.hpp: finish", "include/zerialize/protocols/cbor.hpp: finish", "include/zerialize/protocols/flex.hpp: finish"]}
{"id": "C66", "title": "Floats are read back by asFloat", "statement": "A float written anywhere in a message is read back by asFloat() at that position with the same bits (NaNs: as a NaN, made quiet). Where a double was written asFloat() returns the nearest float, ties to even, infinity when it is too large. On every other value it throws DeserializationError.", "quantifier": "every float and double bit pattern, every message built from any expression, every position in it, all five protocols", "why_tests_cant": "2^32 floats, 2^64 doubles and unboundedly many messages; rounding ties and subnormals are rarely tested.", "anchors": ["include/zerialize/protocols/zera.hpp: asFloat", "include/zerialize/protocols/msgpack.hpp: asFloat", "include/zerialize/protocols/cbor.hpp: asFloat", "include/zerialize/protocols/json.hpp: asFloat", "include/zerialize/protocols/flex.hpp: asFloat"]}
{"id": "C67", "title": "Tensors in ZERA messages are viewed without copying", "statement": "When the memory holding a ZERA message is aligned for the element type, a tensor or matrix view of any tensor in the message is zero-copy: it points into the message, at an aligned address, and allocates nothing. A tensor written and read back that way has the same shape and elements.", "quantifier": "every history of writer calls, every position in the message, every supported element type, every aligned base address, every shape", "why_tests_cant": "Whether a payload is aligned depends on everything written before it; tests check a few messages at addresses chosen by the allocator.", "anchors": ["README.md: Zero-copy tensors", "include/zerialize/protocols/zera.hpp: align_up, arena_append, asBlob", "include/zerialize/tensor/xtensor.hpp: asXTensorView", "include/zerialize/tensor/eigen.hpp: asEigenMatrixView", "include/zerialize/tensor/utils.hpp"]}
{"id": "C68", "title": "Type tests decide which accessors work", "statement": "On any view, where a type test answers no, the accessors of that type throw DeserializationError (contains() answers false): isBool/asBool, isInt and isUInt/asInt*, asUInt*, isFloat/asDouble, asFloat, isString/asString, asStringView, isBlob/asBlob, isArray/arraySize, operator[](i), isMap/mapKeys, operator[](key). At most one of null, bool, integer, float, string, blob, map, array is answered with yes.", "quantifier": "every view of every byte string (not only written messages), every index and key, all five protocols", "why_tests_cant": "Tests try a few accessors on a few values of the wrong type; the claim covers all first bytes, all contents and all accessors.", "anchors": ["include/zerialize/concepts.hpp: Reader", "include/zerialize/protocols/zera.hpp", "include/zerialize/protocols/msgpack.hpp", "include/zerialize/protocols/cbor.hpp", "include/zerialize/protocols/json.hpp", "include/zerialize/protocols/flex.hpp"]}
{"id": "C69", "title": "Written values pass the test of their own type", "statement": "A value written at any position of a message is reached there by operator[] and passes the type test of its own type: isNull, isBool, isInt for signed integers, isUInt for unsigned ones, isFloat, isString, isBlob, isMap, isArray.", "quantifier": "every expression that builds a value, every position in it, all five protocols", "why_tests_cant": "The answer depends on the number and its position, over unboundedly many values; small integers hide the MessagePack case.", "anchors": ["include/zerialize/protocols/msgpack.hpp: isInt, isUInt, int64", "include/zerialize/protocols/zera.hpp", "include/zerialize/protocols/cbor.hpp", "include/zerialize/protocols/json.hpp", "include/zerialize/protocols/flex.hpp"]}
{"id": "C70", "title": "Every listed key is found, and no other", "statement": "Where mapKeys() enumerates the keys of a view, contains(key) answers whether key is among them, operator[](key) returns a view if it is and throws DeserializationError if it is not.", "quantifier": "every view of every message (arbitrary bytes, not only written ones), every key, all five protocols", "why_tests_cant": "The three operations walk the bytes with different code; they can come apart on messages no writer of this library produces.", "anchors": ["include/zerialize/protocols/json.hpp", "include/zerialize/protocols/msgpack.hpp: mapKeys, contains, operator[], arraySize", "include/zerialize/protocols/cbor.hpp: mapKeys, contains, operator[], arraySize", "include/zerialize/protocols/zera.hpp", "include/zerialize/protocols/flex.hpp"]}
{"id": "C71", "title": "The indices below arraySize() are exactly the valid ones", "statement": "Where arraySize() returns n, operator[](i) returns a view for every i < n and throws DeserializationError for every i >= n.", "quantifier": "every view of every message (arbitrary bytes), every size_t index, all five protocols", "why_tests_cant": "Indices range over 2^64 values and messages over all bytes; sizes announced by hostile messages are not in tests.", "anchors": ["include/zerialize/protocols/json.hpp", "include/zerialize/protocols/msgpack.hpp: mapKeys, contains, operator[], arraySize", "include/zerialize/protocols/cbor.hpp: mapKeys, contains, operator[], arraySize", "include/zerialize/protocols/zera.hpp", "include/zerialize/protocols/flex.hpp"]}
{"id": "C72", "title": "A binary message identifies its value", "statement": "If two values serialize to byte-equal messages (or one message is a prefix of the other), the values are equal and the messages end at the same place, so messages can be compared, hashed and concatenated in place of values. Integers count as equal when they are the same number.", "quantifier": "every pair of values (repeated keys included), every pair of ZERA thresholds and call histories; ZERA, MessagePack, CBOR, JSON text", "why_tests_cant": "Needs unique decoding over all pairs of messages; collisions are not visible to round-trip tests of single values.", "anchors": ["include/zerialize/protocols/zera.hpp", "include/zerialize/protocols/msgpack.hpp", "include/zerialize/protocols/cbor.hpp"]}
{"id": "C73", "title": "Bytes after a message do not matter", "statement": "Reading a serialized message from a larger buffer, followed by any other bytes, answers every question as reading the message alone.", "quantifier": "every value, every trailing bytes; ZERA, MessagePack, CBOR, JSON", "why_tests_cant": "Trailing bytes are arbitrary and readers could take the end of the buffer for the end of a value.", "anchors": ["include/zerialize/protocols/zera.hpp", "include/zerialize/protocols/msgpack.hpp", "include/zerialize/protocols/cbor.hpp"]}
{"id": "C74", "title": "A truncated message never answers wrongly", "statement": "If only the first part of a message has arrived, every type test, accessor, size, lookup and key list that returns a result (at any depth, along any path of operator[] calls) returns what the whole message returns there, hence what the written value says; the reader may refuse, it may not invent data.", "quantifier": "every byte sequence, every prefix of it, every path, every operation; every written value; ZERA, MessagePack, CBOR, JSON", "why_tests_cant": "Truncation points, messages and paths are unbounded; a test sees only that some cut messages are rejected.", "anchors": ["include/zerialize/protocols/zera.hpp", "include/zerialize/protocols/msgpack.hpp", "include/zerialize/protocols/cbor.hpp"]}
{"id": "C75", "title": "Key iterators are positions in the list of keys", "statement": "The range returned by mapKeys() behaves as a forward range of string_views into the message: copies advance independently, iterators of one range are equal exactly at the same position, dereferencing gives the key at that position, and views, ranges and iterators that have done their work may be destroyed without affecting iterators and string_views still in use.", "quantifier": "every client program over any number of views, ranges, iterators and saved string_views (begin, end, copy, advance, dereference, compare, destroy, in any order); every message; all five protocols", "why_tests_cant": "Programs are unbounded, and reading a destroyed view, range or scratch string usually still shows the right characters when a test does it.", "anchors": ["include/zerialize/protocols/zera.hpp", "include/zerialize/protocols/msgpack.hpp", "include/zerialize/protocols/cbor.hpp", "include/zerialize/protocols/json.hpp", "include/zerialize/protocols/flex.hpp"]}
{"id": "C76", "title": "translate copies what any source says, no more and no less", "statement": "For an arbitrary message, valid or not, translate returns a document exactly when reading the source completely (type questions, the accessor of that type, every element by index, every entry by its key) gives one value that the destination can write; the document is then what writing that value gives, and the destination's reader shows that value. If the source says a value that cannot be written, translate throws what the writer throws.", "quantifier": "all byte strings as source of any of the five formats, all parsed JSON trees, all FlexBuffers trees; every destination", "why_tests_cant": "Tests translate a few documents produced by the library's own writers; sources from elsewhere (other integer widths, indefinite lengths, repeated keys, damaged bytes) are unbounded in number.", "anchors": ["include/zerialize/translate.hpp", "include/zerialize/protocols/zera.hpp", "include/zerialize/protocols/msgpack.hpp", "include/zerialize/protocols/cbor.hpp", "include/zerialize/protocols/json.hpp", "include/zerialize/protocols/flex.hpp"]}
{"id": "C77", "title": "translate comes to an end on any source", "statement": "translate<Dst>(src) returns or throws; it never recurses or loops without end, whatever bytes the source was opened on. The depth of the recursion is bounded by the length of the message (MessagePack, CBOR), the height of the document (JSON) or the size of the tree (FlexBuffers).", "quantifier": "all byte strings as MessagePack, CBOR, ZERA, JSON or FlexBuffers source, all parsed JSON documents, all FlexBuffers trees; every destination", "why_tests_cant": "A test that hangs on one crafted message says nothing about the others; that no message makes the skip, key-iterator and search loops or the mutual recursion run forever is a statement about all byte strings.", "anchors": ["include/zerialize/translate.hpp", "include/zerialize/protocols/zera.hpp", "include/zerialize/protocols/msgpack.hpp", "include/zerialize/protocols/cbor.hpp", "include/zerialize/protocols/json.hpp", "include/zerialize/protocols/flex.hpp"]}
{"id": "C78", "title": "Reading and copying take a bounded amount of stack", "statement": "However deeply a message is nested, stepping over it and translating it take no more than a fixed number of nested calls; a message nested deeper is rejected with an exception instead of exhausting the stack.", "quantifier": "all MessagePack, CBOR and JSON byte strings, all parsed JSON documents, all nesting depths, every destination", "why_tests_cant": "A test tries one depth; that the number of nested calls is exactly the depth of the value for every message, or at most 1025 for every message, is a statement about all of them.", "anchors": ["include/zerialize/translate.hpp", "include/zerialize/protocols/msgpack.hpp", "include/zerialize/protocols/cbor.hpp"]}
{"id": "C79", "title": "A copy is no bigger than the message it was read from", "statement": "The value read out of a message, counting its nodes, its keys and the bytes of its strings and blobs, is no bigger than the message; so translating a small message cannot produce a huge one.", "quantifier": "all byte strings given to the five readers, all values they say, all sizes", "why_tests_cant": "A test compares the sizes of a few documents; that no byte string stands for more than it contains, or that some family of messages grows exponentially when copied, is a statement about all of them.", "anchors": ["include/zerialize/translate.hpp", "include/zerialize/protocols/msgpack.hpp", "include/zerialize/protocols/cbor.hpp", "include/zerialize/protocols/zera.hpp", "include/zerialize/protocols/flex.hpp", "include/zerialize/protocols/json.hpp"]}
{"id": "C80", "title": "What is read from a message is what the format's specification says it stands for", "statement": "A message is read as a value exactly if, after the published specification of its format, it begins with an encoding of that value: every encoding the format allows is accepted and read correctly, whichever program produced it, and nothing else is read as a value.", "quantifier": "all byte strings given to the readers, all objects of the formats in all the encodings these allow, all values", "why_tests_cant": "Tests read what the library's own writers produced, which use one encoding per value; other producers use other widths, layouts and orders, and the set of all conforming and non-conforming messages is infinite.", "anchors": ["include/zerialize/protocols/msgpack.hpp", "include/zerialize/protocols/cbor.hpp", "include/zerialize/protocols/zera.hpp", "include/zerialize/translate.hpp", "include/zerialize/protocols/ZERA.md", "include/zerialize/protocols/json.hpp"]}
{"id": "C81", "title": "MessagePack and CBOR writers report misuse", "statement": "If every call on a MessagePack or CBOR writer returns and finish() returns a buffer, then the calls described exactly one value, with the lengths announced to begin_array and begin_map being right, and the buffer is the message of that value.", "quantifier": "all finite sequences of writer calls with all arguments", "why_tests_cant": "The misuses of a call interface are an infinite family, and the buffers they produce often look like ordinary messages.", "anchors": ["include/zerialize/protocols/msgpack.hpp: MsgPackRootSerializer, MsgPackSerializer", "include/zerialize/protocols/cbor.hpp: RootSerializer, Serializer"]}
{"id": "C82", "title": "Messages are as short as the format allows", "statement": "Whatever MessagePack object or CBOR data item stands for a value, it is at least as long as the message serialize() produces for that value.", "quantifier": "all values, and all encodings of each of them", "why_tests_cant": "A test compares with a few alternative encodings; a value of n nodes has exponentially many, and the differences appear at width boundaries up to 4 GiB.", "anchors": ["include/zerialize/protocols/msgpack.hpp: MsgPackSerializer", "include/zerialize/protocols/cbor.hpp: Serializer"]}
{"id": "C83", "title": "An accessor that returns has found a value of its kind", "statement": "When asString(), asStringView(), asBlob(), asBlobVec(), asBool(), asDouble() or an integer accessor of a MessagePack or CBOR reader returns a value, the bytes at the reader's position begin with an object of the format that is this value; and whenever they do, the accessor returns it.", "quantifier": "all byte strings, all values returned, for CBOR every position in the message", "why_tests_cant": "A test feeds chosen messages; that no other byte string at all makes an accessor return a value cannot be sampled.", "anchors": ["include/zerialize/protocols/msgpack.hpp: MsgPackDeserializer accessors", "include/zerialize/protocols/cbor.hpp: Deserializer accessors, asBlobVec"]}
{"id": "C84", "title": "JSON messages are RFC 8259 texts, byte by byte", "statement": "The bytes a JSON serialization produces are a JSON text (RFC 8259) with the written value as its tree, on one line without control characters; the JSON reader accepts exactly the byte strings that are JSON texts with a representable tree, rejects all others with DeserializationError, and no byte string has two trees; writing and reading through bytes gives back the value.", "quantifier": "all values, all byte strings, builds with and without NDEBUG", "why_tests_cant": "Grammars have infinitely many texts and non-texts; escapes, surrogate pairs, number forms and nesting cannot be enumerated.", "anchors": ["include/zerialize/protocols/json.hpp: JsonDeserializer(std::string_view)", "include/zerialize/protocols/json.hpp: RootSerializer::finish", "include/zerialize/protocols/json.hpp: to_string"]}
{"id": "C85", "title": "JSON numbers are read as the nearest double", "statement": "A JSON number with a fraction or an exponent is read as the IEEE 754 double nearest to it, ties to the even mantissa, and rejected with DeserializationError exactly when that double is infinite; an integer that fits int64_t (negative) or uint64_t is read exactly, any other integer as the nearest double. There is exactly one nearest double. Every finite double has a text that reads back as that very double, so every value JSON can carry can be written and read back unchanged.", "quantifier": "all decimal numerals of any length and exponent, all finite doubles, all values", "why_tests_cant": "There are infinitely many numerals, and wrong roundings hide at rare near-ties and subnormal boundaries.", "anchors": ["include/zerialize/protocols/json.hpp: JsonDeserializer(std::string_view)", "include/zerialize/protocols/json.hpp: asDouble", "include/zerialize/protocols/json.hpp: double_"]}
{"id": "C86", "title": "FlexBuffers messages as bytes", "statement": "Whatever calls are made on a Flex writer, finish() yields bytes from which every Reader accessor, at every depth, answers exactly what was written (as described by C32, C33, C55-C57), whatever widths, alignment, shared keys and offsets the layout needed, and whatever bytes precede the message; values written in any valid order of calls read back equal, maps in key order. Unlike the other protocols, bytes after a message, truncation and arbitrary bytes are not safe.", "quantifier": "all sequences of Writer calls, all values, all byte prefixes, all accessor paths", "why_tests_cant": "The layout depends on the sizes of everything written before; width and padding errors only show at particular sizes and nestings.", "anchors": ["include/zerialize/protocols/flex.hpp: RootSerializer::finish", "include/zerialize/protocols/flex.hpp: FlexViewBase", "include/zerialize/protocols/flex.hpp: FlexDeserializer"]}
{"id": "C87", "title": "FlexBuffers messages are exchanged with other programs", "statement": "Every FlexBuffers message laid out as the format describes -- by whichever program, with whatever widths, out-of-line numbers and shared or repeated parts -- is read by FlexDeserializer as the value it lays out; and what a Flex writer's finish() returns is such a message for the written value, maps in key order, every number in line and at a multiple of its width. Bytes are a message for at most one value. Typed vectors, which the format also has, are not read (they appear as empty arrays).", "quantifier": "all byte strings and values, all sequences of Writer calls that describe a value", "why_tests_cant": "Tests read back what the same library wrote; layouts another writer may choose, and sizes at which widths and offsets change, are unbounded.", "anchors": ["include/zerialize/protocols/flex.hpp: RootSerializer::finish", "include/zerialize/protocols/flex.hpp: FlexViewBase", "include/zerialize/protocols/flex.hpp: FlexDeserializer"]}
{"id": "C88", "title": "dump_flex prints the value in a message", "statement": "flex::debugging::dump_flex prints the value a FlexBuffers message holds: every entry of every map and array once, in order, maps with their keys, strings and keys quoted so that they can be read back, blobs by their size; two messages for which it prints the same text hold the same value (up to blob contents, rounded doubles and the signedness of integers).", "quantifier": "all FlexBuffers messages, whoever wrote them", "why_tests_cant": "It prints to std::cout and no test looks at what; the layouts another writer may choose and the nestings are unbounded.", "anchors": ["include/zerialize/protocols/flex.hpp: debugging::dump_flex", "include/zerialize/protocols/flex.hpp: debugging::print_ref", "include/zerialize/protocols/flex.hpp: debugging::print_map"]}
{"id": "C89", "title": "Accepted tensors have the element type and the dimensions that are in the message", "statement": "If asXTensor, asXTensorView, asEigenMatrix or asEigenMatrixView accepts a message as elements of type T, the message has the index of T at position 0 and, at position 1, an array with exactly the dimensions of the result; a negative dimension or one from 2^32 is never accepted as another one.", "quantifier": "all byte strings in all five formats, all element types, fixed or free ranks and matrix sizes", "why_tests_cant": "Dimensions that agree with the blob only after reduction to 32 bits or after multiplication by zero are not among the shapes a test writes.", "anchors": ["include/zerialize/tensor/utils.hpp: tensor_shape", "include/zerialize/tensor/xtensor.hpp: asXTensorView, asXTensor", "include/zerialize/tensor/eigen.hpp: asEigenMatrixView, asEigenMatrix"]}
{"id": "C90", "title": "The xtensor and the Eigen reader do the same on every message", "statement": "asXTensor / asXTensorView of rank 2 and asEigenMatrix / asEigenMatrixView of dynamic size accept the same messages, throw the same exceptions on the others, report the same zero-copy information, and the results have the same dimensions and the same element at every (row, column). A matrix type of fixed size accepts exactly those of these messages that have its dimensions.", "quantifier": "every message in every format, every element type, every blob address, both storage orders", "why_tests_cant": "The two readers check sizes differently (overflow-checked product versus plain multiplication); that no message is accepted by only one cannot be sampled.", "anchors": ["include/zerialize/tensor/xtensor.hpp: asXTensorView, asXTensor", "include/zerialize/tensor/eigen.hpp: asEigenMatrixView, asEigenMatrix"]}
