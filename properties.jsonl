{"id": "C01", "title": "Live buffers never overlap", "statement": "For every sequence of init/allocate/release/reset calls whose size requests do not overflow size_t, the memory regions of any two buffers that have been handed out and not yet released are disjoint, each lies completely inside the pool, and each is at least as long as the request.", "quantifier": "all pool sizes, all block-table sizes, all finite call sequences with arbitrary arguments (including bogus releases)", "why_tests_cant": "the space of interleaved allocate/release sequences and fragmentation shapes is unbounded; tests only replay a handful", "anchors": ["include/subcollider/BufferAllocator.h: allocate, release, init, reset"]}
{"id": "C02", "title": "Allocation succeeds exactly when a free run fits, first-fit", "statement": "allocate succeeds if and only if the allocator is initialised, the size is non-zero, the channel count is 1 or 2 and some maximal free run of the pool is at least as long as the request; on success the buffer starts at the lowest-addressed such run and carries the requested length, channel count and the allocator sample rate.", "quantifier": "all reachable allocator states and all requests", "why_tests_cant": "completeness (never a spurious failure) needs all fragmentation patterns, not examples", "anchors": ["include/subcollider/BufferAllocator.h: allocate"]}
{"id": "C03", "title": "Failed calls change nothing", "statement": "An allocate that returns an invalid buffer, a release that returns false, or a fill that returns false leaves pool contents, block table and all accounting exactly as before.", "quantifier": "all states, all arguments", "why_tests_cant": "absence of any side effect over the full state cannot be observed by spot checks", "anchors": ["include/subcollider/BufferAllocator.h: allocate, release, fillMono, fillStereo, fillStereoInterleaved"]}
{"id": "C04", "title": "Space accounting is exact", "statement": "After initialisation freeSpace() + usedSpace() equals the pool size at all times and usedSpace() is at least the total length of the buffers currently handed out; it is exactly that total as long as a descriptor slot was free before each allocate (a full table charges the whole free run). Before initialisation freeSpace() is 0 and nothing is handed out.", "quantifier": "all call sequences", "why_tests_cant": "conservation over unbounded histories", "anchors": ["include/subcollider/BufferAllocator.h: freeSpace, usedSpace"]}
{"id": "C05", "title": "Release frees exactly one region and coalesces", "statement": "release(b) returns true exactly when b.data is the start of a buffer currently handed out; it then makes free exactly the cells of that region and no others, and neighbouring free regions act as one (see C02, C06).", "quantifier": "all reachable states, all pointers (including foreign ones)", "why_tests_cant": "requires every fragmentation pattern and every pointer value", "anchors": ["include/subcollider/BufferAllocator.h: release, mergeAdjacentFreeBlocks"]}
{"id": "C06", "title": "No leak: releasing everything restores the pristine pool", "statement": "From any reachable state, releasing all live buffers in any order leaves one single free block covering the whole pool, so a request of the full pool size succeeds again.", "quantifier": "all histories, all release orders", "why_tests_cant": "order-independence over factorially many release orders", "anchors": ["include/subcollider/BufferAllocator.h: release"]}
{"id": "C07", "title": "Block table never overruns", "statement": "For MaxBlocks >= 1, every access to the block descriptor table is in bounds for every call sequence, blockCount() never exceeds MaxBlocks, and when the table is full allocation still works by handing out the whole free block (the surplus counts as used).", "quantifier": "all table sizes and call sequences", "why_tests_cant": "an out-of-bounds shift only shows in rare full-table states", "anchors": ["include/subcollider/BufferAllocator.h: allocate, mergeAdjacentFreeBlocks, blockCount"]}
{"id": "C08", "title": "Oversized stereo requests are rejected", "statement": "A request for more floats than the pool holds is rejected for every numSamples/channels pair. The code violates this: numSamples*channels is computed modulo 2^64, so allocate(2^63, 2) succeeds with a zero-length region and two later buffers share memory.", "quantifier": "all 64-bit sizes", "why_tests_cant": "needs the wrap-around corner of a 64-bit multiplication", "anchors": ["include/subcollider/BufferAllocator.h: allocate"]}
{"id": "C09", "title": "Buffer fills copy exactly the requested frames", "statement": "fillMono/fillStereo/fillStereoInterleaved copy exactly min(count, buffer length) frames into the buffer, frame i reads back bit-exactly through getSample/getStereoSample, and no other pool location changes.", "quantifier": "all live buffers, all source arrays, all counts", "why_tests_cant": "frame condition over the whole pool and every length relation", "anchors": ["include/subcollider/BufferAllocator.h: fillMono, fillStereo, fillStereoInterleaved", "include/subcollider/Buffer.h: getSample, getStereoSample"]}
{"id": "C10", "title": "Buffers are isolated from each other", "statement": "Filling, allocating or releasing other buffers never changes the contents of a live buffer; init and reset zero the entire pool.", "quantifier": "all histories, all pairs of live buffers", "why_tests_cant": "non-interference quantifies over every other operation", "anchors": ["include/subcollider/BufferAllocator.h: allocate, release, fill*, init, reset"]}
{"id": "C11", "title": "Sample reads are memory safe", "statement": "getSample/getStereoSample never read outside the buffer for any index, return silence for any index past the end or an invalid buffer, mono buffers return the same value on both channels.", "quantifier": "all buffers and all 64-bit indices", "why_tests_cant": "all indices including overflowing products", "anchors": ["include/subcollider/Buffer.h: getSample, getStereoSample"]}
{"id": "C12", "title": "Double buffering: readers see only completed blocks", "statement": "For every interleaving of block writes, clears, swaps and reads in which the writer fetches the processing pointer anew after each swap, the output side shows exactly the contents the writer had produced at the last swap, and a reader holding the output pointer keeps seeing that block until the writer starts storing into the block after the next swap. The two pointers never alias. The code does not enforce the discipline: a reader that holds its pointer across a swap and the next block's stores sees a torn block, and a writer that keeps its pointer across a swap overwrites the block on show.", "quantifier": "all histories of pointer fetches, stores, clears, swaps and loads, all block sizes", "why_tests_cant": "interleavings are unbounded", "anchors": ["include/subcollider/AudioLoop.h: swapBuffers, getOutputBuffer, getProcessingBuffer"]}
{"id": "C13", "title": "Block processing equals sample-by-sample processing", "statement": "For every unit generator with a block call (oscillators, envelopes, lines, lags, filters, BufRd, CombC, XPlay, RLPF, all Moog ladders, ExampleVoice, SuperSaw), process of n samples does n successive ticks: sample i of the output is the output of tick i on sample i of the inputs as they were before the call, processAdd adds and processMul multiplies it onto the sample there, the state is that after n ticks, and no other memory changes. A block of n+k samples is a block of n followed by a block of k. This holds in place, for disjoint buffers and for an output that starts before its input; an output buffer that starts inside its input violates it (each output is read again as a later input). A buffer shorter than n is undefined behaviour. Downsampler blocks are covered by C43.", "quantifier": "all states, block sizes, splittings, buffer contents and buffer positions, including overlapping buffers", "why_tests_cant": "all block sizes, states and overlaps", "anchors": ["include/subcollider/ugens/SinOsc.h: process, processAdd", "include/subcollider/ugens/EnvelopeAR.h: process, processMul", "include/subcollider/ugens/Lag.h: process", "include/subcollider/ugens/Tape.h: processStereo", "include/subcollider/ugens/BufRd.h: process, processStereo", "include/subcollider/ExampleVoice.h: process, processAdd"]}
{"id": "C14", "title": "clamp and lerp contracts", "statement": "clamp returns a value in [lo,hi] for every non-NaN input (infinities included), is the identity inside the interval and passes a NaN through; lerp between two values bounded by a power of two never leaves that bound for t in [0,1] in float arithmetic, is monotone in t and exact at t = 0; at t = 1 it can miss the end value.", "quantifier": "all binary32 values", "why_tests_cant": "2^96 input triples", "anchors": ["include/subcollider/types.h: clamp, lerp"]}
{"id": "C15", "title": "LinLin is monotone and hits its low endpoint", "statement": "Linear range mapping is monotone non-decreasing in its input (for increasing source and destination ranges), maps the low source endpoint to the low destination endpoint exactly and never exceeds a power of two bounding the destination range; the high endpoint can be overshot by rounding.", "quantifier": "all finite binary32 inputs and ranges that do not overflow", "why_tests_cant": "monotonicity relates all pairs of inputs", "anchors": ["include/subcollider/ugens/LinLin.h: linlin"]}
{"id": "C16", "title": "Wrap keeps values in the range up to rounding", "statement": "wrap(x, lo, hi) is documented to land in [lo, hi). For the default range [0,1) the result is the correctly rounded fractional part and lies in [0,1], equal to 1 only for inputs in [-2^-25,0). Integer-valued inputs and bounds up to 2^22 wrap exactly to the mathematical modulus. For arbitrary bounds the result is congruent to x and within the range up to 2^-20 of |x|+|lo|+range. The half-open contract itself is violated at both ends (wrap(-2^-40,0,1) = 1, wrap(0.9f,0,0.1f) < 0). The cached form equals the direct form bit for bit.", "quantifier": "all binary32 inputs", "why_tests_cant": "rounding corner cases hide in a 2^32-point domain", "anchors": ["include/subcollider/ugens/Wrap.h: process, tick"]}
{"id": "C17", "title": "Equal-power panning", "statement": "For every input x between 2^-100 and 2^60 in magnitude and every position (not NaN), the two outputs of Pan2::process satisfy |L^2 + R^2 - x^2| <= 2^-20 x^2; Balance2 and XFade2 do the same against (level*x)^2 with cached gains. Position -1 gives L = x bit for bit and R = 0, position +1 gives (0, x) and position 0 gives x*sqrt(1/2) on both sides to within 2^-20 |x|; positions outside [-1,1], infinities included, act as the nearest endpoint.", "quantifier": "all positions, levels and samples in the stated magnitude range, every sin/cos within two units in the last place", "why_tests_cant": "continuum of positions and every conforming libm", "anchors": ["include/subcollider/ugens/Pan2.h: process", "include/subcollider/ugens/Balance2.h: process", "include/subcollider/ugens/XFade2.h: process"]}
{"id": "C18", "title": "Cached pan gains equal direct processing", "statement": "setPan(p) followed by tick(x) gives bit-identical output to process(x, p) for Pan2; XFade2 (mono and stereo) does so for every level; Balance2 does so for level 1 and agrees to 2^-20 relative to |level*x| for other levels, where it is not bit-identical (7 at centre with level 3).", "quantifier": "all positions, levels, samples, every libm", "why_tests_cant": "bit equality over all floats", "anchors": ["include/subcollider/ugens/Pan2.h: setPan, tick", "include/subcollider/ugens/Balance2.h: setPosition, tick", "include/subcollider/ugens/XFade2.h: setPosition, tick"]}
{"id": "C19", "title": "setLevel preserves the position", "statement": "setLevel(l1) after setPosition(p, l0) gives, on unit inputs, what setPosition(p, l1) would: XFade2 to 2^-19 l1 for l0 >= 2^-15, Balance2 to 2^-12 l1 for p <= 0.9 and l0 >= 2^-4. Outside those ranges the code violates it: XFade2 stays silent for ever after level 0 and outputs infinity after level -1e-12f, Balance2 at p >= 1 inverts the right channel, and after level 0 it jumps to hard left.", "quantifier": "all positions and levels in the stated ranges, every sin/cos/atan within two units in the last place", "why_tests_cant": "continuum of positions and levels; the failures sit at single states for every conforming libm", "anchors": ["include/subcollider/ugens/Balance2.h: setLevel", "include/subcollider/ugens/XFade2.h: setLevel"]}
{"id": "C20", "title": "AR envelope stays in [0,1]", "statement": "For every history of init, setters, triggers, releases, gates and ticks with a positive sample rate, EnvelopeAR output is a finite number in [0,1].", "quantifier": "all call histories, all argument values including NaN and infinities, every libm exp that maps non-positive numbers into [0,1]", "why_tests_cant": "unbounded histories in float arithmetic", "anchors": ["include/subcollider/ugens/EnvelopeAR.h: tick, trigger, release, setAttack, setRelease"]}
{"id": "C21", "title": "AR envelope phase monotonicity and completion", "statement": "Within attack the output never decreases while the stored coefficient is below 1 (and by at most 2^-24 if it has rounded to 1, which does happen), within release it never increases, idle outputs exactly 0 until the next trigger or rising gate, and a release with per-sample factor below 1 always reaches idle.", "quantifier": "all states, all histories", "why_tests_cant": "termination is a statement about all numbers of ticks", "anchors": ["include/subcollider/ugens/EnvelopeAR.h: tick"]}
{"id": "C22", "title": "Attack always completes", "statement": "An envelope left gated should reach its peak after finitely many samples. It does, within 2^24+1 samples, exactly when the stored attack coefficient is at most 1-501/2^24 (attack times up to 33300 samples); for every larger coefficient (33700 samples and up, e.g. 1 s at 48 kHz) the float recurrence stalls below the 0.999 threshold and the envelope never leaves the attack phase. The same holds of the ADSR envelope.", "quantifier": "all attack times, all sample rates, all numbers of samples, every exp accurate to 2^-23", "why_tests_cant": "non-termination cannot be observed by finite tests", "anchors": ["include/subcollider/ugens/EnvelopeAR.h: tick", "include/subcollider/ugens/EnvelopeADSR.h: tick"]}
{"id": "C23", "title": "ADSR envelope stays in [0,1]", "statement": "For every history of calls with positive sample rate and non-NaN sustain levels, EnvelopeADSR output is finite and in [0,1]; a NaN sustain level is stored and comes out.", "quantifier": "all call histories and argument values", "why_tests_cant": "unbounded histories in float arithmetic", "anchors": ["include/subcollider/ugens/EnvelopeADSR.h: tick, gate, setSustain"]}
{"id": "C24", "title": "ADSR gate semantics", "statement": "For every history without NaN gates: the envelope is in attack, decay or sustain iff the last gate was positive; a gate edge from <=0 to >0 always enters attack from the present value without a jump; a held gate never restarts; gate off from any sounding phase leads to release; isDone is true exactly when a note was started since the last init/reset and the envelope is idle again; release always reaches idle when its factor is below 1; sustain holds its level and idle outputs 0 for ever. A NaN gate makes the next rising edge go unnoticed.", "quantifier": "all gate histories", "why_tests_cant": "edge detection over arbitrary gate sequences", "anchors": ["include/subcollider/ugens/EnvelopeADSR.h: gate, tick"]}
{"id": "C25", "title": "LFNoise2 output bounded, smooth and reproducible", "statement": "With frequency at most the sample rate (NaN, zero and negative ones are replaced by 0.001) every LFNoise2 sample is a number in [-1,1] after any sequence of tick, setFrequency, setSeed and reset calls; consecutive samples differ by at most 4*frequency/sampleRate + 2^-17; sample n is, within 2^-18, the clamped Catmull-Rom spline through the random points of the seed at position n*frequency/sampleRate (drift at most n*2^-23); reset(k) restarts exactly the sequence of a fresh generator with seed k. Violated for an infinite or huge frequency: NaN for ever.", "quantifier": "all sample rates from 1 Hz, seeds, frequencies, call sequences of any length", "why_tests_cant": "all 2^32 seeds and unbounded runs", "anchors": ["include/subcollider/ugens/LFNoise2.h: init, setFrequency, nextRandom, tick, reset"]}
{"id": "C26", "title": "Noise generator has full period", "statement": "From every seed the generator behind nextRandom repeats a state exactly after multiples of 2^32 draws and visits every 32-bit state; generators with different seeds never coincide at equal positions; the value handed out is state/2^31 - 1 within 2^-22.", "quantifier": "all seeds, all positions in the sequence", "why_tests_cant": "period of 2^32 steps cannot be enumerated in a unit test per seed", "anchors": ["include/subcollider/ugens/LFNoise2.h: nextRandom"]}
{"id": "C27", "title": "Oscillator phase stays in its cycle", "statement": "With sample rate at least 880 Hz and frequencies in [0, sampleRate/2], after any calls the phases of SinOsc (in [0,2pi]), LFTri and LFNoise2 (in [0,1]) stay in one cycle, strictly below its end after a tick, and every sample is a number in [-1,1] (SinOsc: given std::sin has values in [-1,1]). Violated outside that range: LFTri leaves [-1,1] at negative frequencies and above the sample rate, SinOsc phase drifts away at negative frequencies.", "quantifier": "all run lengths, all frequency changes", "why_tests_cant": "unbounded accumulation", "anchors": ["include/subcollider/ugens/SinOsc.h: tick", "include/subcollider/ugens/LFTri.h: tick", "include/subcollider/ugens/LFNoise2.h: tick"]}
{"id": "C28", "title": "SawDPW stays finite and bounded", "statement": "For sr/2^14 <= f <= sr/2, every SawDPW sample after the first tick following the last call is finite and at most 2 + 1/128 in size; between wraps it equals 2*(p+p'-1) within 1/128 (amplitude 2, so the documented range [-1,1] is violated). Also violated at start-up: the first sample after reset is sr/(2f) (54.5 at 440 Hz, 48 kHz); a frequency change scales one sample by the ratio; frequency 0 gives NaN for ever from the second sample.", "quantifier": "all reachable states, sample rates 1..2^100, run lengths", "why_tests_cant": "corner states", "anchors": ["include/subcollider/ugens/SawDPW.h: init, tick, reset, setFrequency"]}
{"id": "C29", "title": "LagLinear reaches its target exactly on time", "statement": "From any state, with a new non-NaN target held, LagLinear outputs exactly the target from tick max(1, round(time*sampleRate)) on, for ever (time > 0, time*sampleRate <= 2^30); the same after setTime in mid-ramp; with time <= 0 every output equals its input. Until then (also after such a setTime) output i is within (i+4)*2^(k-24) of the straight line, 2^k bounding start and target (ramps up to 2^23 samples). Violated where one would expect more: a 60 s ramp 1 -> 1.2 at 48 kHz overshoots past 1.34, and time*sampleRate >= 2^31 is an undefined int cast.", "quantifier": "all states, lag times, sample rates, start values and targets", "why_tests_cant": "exactness after arbitrary ramp lengths; rounding drift grows with the length", "anchors": ["include/subcollider/ugens/LagLinear.h: init, tick, setTime, updateIncrement"]}
{"id": "C30", "title": "One-pole smoothers never overshoot their input range", "statement": "Lag, OnePoleLPF (also with per-sample cutoff) and the tape envelope follower: for every sequence of calls (ticks, setters, setValue, reset) whose samples are bounded by 2^k, 0 <= k <= 126, every output is bounded by 2^k, for ever, in float arithmetic; the follower is also never negative. The follower needs positive times: with a negative release time its output doubles without input.", "quantifier": "all call sequences, non-NaN parameters, sample rates", "why_tests_cant": "unbounded sequences with rounding", "anchors": ["include/subcollider/ugens/Lag.h: tick, setLagTime, setValue", "include/subcollider/ugens/OnePoleLPF.h: tick, setCutoff", "include/subcollider/ugens/Tape.h: EnvelopeFollower"]}
{"id": "C31", "title": "One-pole smoothers converge at the specified rate", "statement": "With input x held, from y0, both within 2^k: (1-c)*|(y_n - x) - c^n (y0 - x)| <= 5*2^(k-25)*(1-c^n) for Lag and OnePoleLPF from any reachable state, c the coefficient; the OnePoleLPF coefficient is within 2^-20 of exp(-2*pi*fc/sr); for Lag, after N = time*sampleRate samples (32 <= N <= 65536) the distance is at most 0.103% and up to then at least 0.097% of the step, up to N*2^(k-25). The documented 0.01% is violated.", "quantifier": "all inputs, starting states, coefficients, run lengths", "why_tests_cant": "limit behaviour under rounding", "anchors": ["include/subcollider/ugens/Lag.h: tick, updateCoefficient", "include/subcollider/ugens/OnePoleLPF.h: tick, setCutoff"]}
{"id": "C32", "title": "DC blocker removes DC", "statement": "With the input held, each DCBlock output is the rounded product of coefficient and previous output: same sign, never larger. For cutoffs <= 0 or >= sr/2^18 the coefficient is at most 1-2^-16, from any reachable state the output decays below (c(1+2^-24))^n |y0| + 2^-133, and every output of every call sequence with samples within 2^k is within 33/16*2^k. Stereo use is two independent mono blockers. Violated for tiny cutoffs: 1e-5 Hz at 48 kHz gives coefficient 1 and a step passes unchanged for ever.", "quantifier": "all call sequences, constant levels, run lengths", "why_tests_cant": "limit behaviour", "anchors": ["include/subcollider/ugens/DCBlock.h: init, tick, setCutoff, reset"]}
{"id": "C33", "title": "XLine reaches its end value on time, stays there, and follows the exponential curve until then", "statement": "After set(start,end,dur,mul,add) with valid endpoints, isDone becomes true exactly max(1,ceil(dur*sr)) ticks later and from then on every output is end*mul+add. reset/trigger replay the line exactly. Until then output i is start*(end/start)^(i/N) up to a factor exp(h), |h| <= 2^-16 + i*2^-22 (N <= 2^21 samples, mul=1, add=0, exp and log accurate to 2^-23). Fails for more than 2^24 samples: the float counter sticks and the line never finishes. The error is real: 1 to 1.01 in ten seconds at 48 kHz is constant 1 for all 480000 samples.", "quantifier": "all durations, starts, ends, mul, add, tick counts", "why_tests_cant": "run lengths above 16 million samples; all endpoint/duration combinations", "anchors": ["include/subcollider/ugens/XLine.h: set, updateGrowthFactor, tick, isDone, reset, trigger"]}
{"id": "C34", "title": "XLine argument sanitising", "statement": "For any two non-NaN endpoints, set behaves exactly as set with two non-zero endpoints of the same sign and the requested magnitudes, zero counting as 0.0001; valid endpoints are used as given, so the first sample is start*mul+add. Durations that are zero, negative or NaN count as 0.001 s. The documented rule that zero beside a negative value becomes -0.0001 is not honoured: both endpoints become positive.", "quantifier": "all start/end pairs, all durations", "why_tests_cant": "sign/zero case analysis over all floats", "anchors": ["include/subcollider/ugens/XLine.h: set"]}
{"id": "C35", "title": "Phasor stays in its range", "statement": "For every call sequence with parameters up to 2^100, the next output is finite and lies between start and end, exceeding the upper bound by at most 2^-22(|start|+|end|)+2^-148. With start=0, end>0, non-negative rate and positions, outputs lie in [0,end) for ever under ticks, triggers, resets and rate changes. When start, end and rate lie on one power-of-two grid within 2^22 steps, the output is exact modular arithmetic for ever, in both directions. Refuted documentation: end is output for rate -2^-26 on [0,1); a phasor with end = start is not constant but grows by rate each tick.", "quantifier": "all rates, ends, call sequences, run lengths", "why_tests_cant": "unbounded accumulation and rounding corners", "anchors": ["include/subcollider/ugens/Phasor.h: tick, set, setRate, setStart, setEnd, setResetPos, reset"]}
{"id": "C36", "title": "Phasor trigger is edge sensitive", "statement": "For every trigger history (NaN included) output i equals the k-th sample of the same phasor placed at resetPos, where k is the number of samples since the last change from <=0 to >0; without such a change it equals the untriggered output.", "quantifier": "all trigger sequences, all phasor states", "why_tests_cant": "all histories", "anchors": ["include/subcollider/ugens/Phasor.h: tick(trig), process(trig)"]}
{"id": "C37", "title": "BufRd is memory safe and free of undefined casts", "statement": "For every buffer that really holds numSamples frames of 1 or 2 channels (up to 2^62 floats), every interpolation mode and every finite phase (every phase but NaN when not looping), tick and tickStereo read only inside the buffer and convert only values that fit. Without a usable buffer (null, empty, other channel counts) both return silence for every phase. A NaN phase, or an infinite one when looping, is always an undefined float-to-integer conversion.", "quantifier": "all buffers, lengths, phases, modes", "why_tests_cant": "all floats and buffer sizes; UB need not show", "anchors": ["include/subcollider/ugens/BufRd.h: tick, tickStereo", "include/subcollider/Buffer.h: isValid, getSample, getStereoSample"]}
{"id": "C38", "title": "BufRd returns stored samples at integer phases", "statement": "At an integer phase k of either sign every interpolation mode returns exactly the stored frame k mod n when looping, and the nearest frame when not, in both channels (n <= 2^24 frames, samples up to 2^96). Beyond that it fails: samples near the largest float give NaN in linear mode, and with 2^24+1 frames phase 2^24 reads frame 0.", "quantifier": "all buffers, all integer phases, all modes", "why_tests_cant": "all buffer contents", "anchors": ["include/subcollider/ugens/BufRd.h: tick, tickStereo, cubicInterp"]}
{"id": "C39", "title": "BufRd reads the wrapped or clamped position", "statement": "Looping without interpolation, a phase p >= 0 reads frame floor(p mod n) exactly; a negative phase reads at the wrapped position rounded once to a float. Not looping, phases clamp to the first and last frame. The code violates this for negative phases just below a multiple of n (within a relative 2^-26): rounding gives position n and every mode returns silence whatever the buffer holds.", "quantifier": "all phases, buffers up to 2^24 frames", "why_tests_cant": "rounding corner", "anchors": ["include/subcollider/ugens/BufRd.h: tick, tickStereo, wrapIndex"]}
{"id": "C40", "title": "BufRd output bounded, stereo is two monos", "statement": "In every mode except cubic, samples bounded by a power of two give outputs within that bound, for buffers of any length and every phase for which reading is defined. tickStereo equals, bit for bit, two mono readers on the left and right channel, and tick is the left one. Cubic mode overshoots: 1.25 from samples of magnitude 1.", "quantifier": "all buffers, phases, modes", "why_tests_cant": "all floats", "anchors": ["include/subcollider/ugens/BufRd.h: tick, tickStereo"]}
{"id": "C41", "title": "CombC accesses stay in bounds", "statement": "After init with a sample rate in [1, 2^20] and a maximum delay giving a line of at most 2^24 samples, any sequence of tick, setDelayTime (not NaN), setDecayTime (any float) and reset accesses the delay line only inside its allocation, converts only values that fit, and the wrap loop of every tick ends within 2^17 rounds. Not so outside: setDelayTime(NaN) makes every next tick undefined, a negative line length makes init undefined, and at rate 2^30 with no line the loop never ends.", "quantifier": "all settings and histories", "why_tests_cant": "memory safety and termination over all parameter values", "anchors": ["include/subcollider/ugens/CombC.h: init, tick, setDelayTime"]}
{"id": "C42", "title": "CombC realises the feedback-comb recurrence", "statement": "For a whole-sample delay D inside the line, after any calls, tick returns exactly s[n-D], where s[n] = in[n] + feedback*out[n] rounded in single precision (signal finite, up to 2^96). A delay of zero violates this: tick returns the oldest sample of the line, i.e. the delay is the full line length.", "quantifier": "all inputs, delays, call histories", "why_tests_cant": "functional equality over unbounded signals", "anchors": ["include/subcollider/ugens/CombC.h: tick, setDelayTime, reset"]}
{"id": "C43", "title": "Downsampler frames, readiness and level", "statement": "Over any sequence of write, read, setOversampleFactor and reset: the factor in force is the last one asked for limited to 1..16; isReady holds exactly when that many samples were written since the last read; read with nothing written returns 0; the output never exceeds the (power of two) level of the samples written. process(n) has the same effect and results as n rounds of factor writes and one read, and reads past the end of a shorter block. A stereo downsampler is two independent mono ones.", "quantifier": "all call sequences, factors, inputs", "why_tests_cant": "all sequences with rounding", "anchors": ["include/subcollider/ugens/Downsampler.h: init, setOversampleFactor, write, read, process, isReady, reset, StereoDownsampler"]}
{"id": "C44", "title": "XPlay loop changes return", "statement": "Every call of a session returns if setStartEnd is only used with its default (restart the phasor). With the phasor kept, setStartEnd returns, with the phasor in the new window up to rounding, when the new loop is at least 2^-100 samples long and neither the old position nor the new start is more than 2^23 new loop lengths. The code violates it beyond: when the old position lies past the new window and the new loop is shorter than 2^-27 of that position, the wrap loop never ends because the float subtraction no longer changes the position.", "quantifier": "all call sequences on a new XPlay (sample rate 1..2^18, buffers up to 2^32 frames, |rate| up to 2^16, fade times up to 4096 s, no NaN loop points)", "why_tests_cant": "non-termination; depends on rounding", "anchors": ["include/subcollider/ugens/XPlay.h: setStartEnd, updateLoopBounds"]}
{"id": "C45", "title": "XPlay never reads outside its buffer", "statement": "No call sequence on an initialised XPlay reads a sample outside the buffer or makes an out-of-range float to int conversion, for finite rates up to 2^16 and non-NaN loop points. The code violates it otherwise: an infinite or NaN rate makes the second tick after it undefined, and a NaN start followed by a loop change that keeps the phasor makes the next tick undefined.", "quantifier": "all call sequences, buffers, rates, loop points", "why_tests_cant": "all histories; undefined behaviour may go unnoticed", "anchors": ["include/subcollider/ugens/XPlay.h: tick, setRate, setStartEnd", "include/subcollider/ugens/BufRd.h: readSample"]}
{"id": "C46", "title": "FVerb parameters always within documented ranges", "statement": "After any calls of init, setters, reset and process, every parameter of an initialised reverb equals the value of its last setter call since init moved to the nearer end of the documented range (infinities included), or the default of init (predelay 150 ms, decay 82 %, damping 5500 Hz, ...) if it has not been set since. The code violates this for NaN: no setter keeps it out.", "quantifier": "all histories of calls and values", "why_tests_cant": "all floats and histories", "anchors": ["include/subcollider/ugens/FVerb.h: setters", "include/subcollider/ugens/fverb/FVerb.cpp: init, setters", "include/subcollider/ugens/fverb/FVerbDSP.h: ranges, instanceResetUserInterface"]}
{"id": "C47", "title": "FVerb delay lines never alias", "statement": "For every sample rate and history of calls, the reverb with its ring buffers of fixed power-of-two size and one running int counter gives exactly the output of the network of ideal delay lines in which every tap yields the sample written exactly that many frames earlier (0 before the last init or reset), with no index out of bounds; it is undefined only if a control value leaves the range of int, an empty block comes first (C48) or the counter overflows (C85). The 65536-entry sine table holds sin(2 pi i / 65536).", "quantifier": "all histories of calls of any length, all sample rates, settings and samples", "why_tests_cant": "all sample rates and run lengths up to 2^31", "anchors": ["include/subcollider/ugens/fverb/FVerbDSP.h: instanceConstants, instanceClear, compute"]}
{"id": "C48", "title": "FVerb empty blocks are harmless", "statement": "process(l, r, 0) changes no later output. The code violates this when it is the first block of an initialised reverb: the internal pointer table has not been allocated and is dereferenced. Before init, process passes the input through unchanged.", "quantifier": "all call histories", "why_tests_cant": "specific first-call history", "anchors": ["include/subcollider/ugens/fverb/FVerb.cpp: process, allocateBuffers"]}
{"id": "C49", "title": "RLPF is stable with unit gain at 0 Hz", "statement": "In double arithmetic with rounding: after reset, whatever calls came before, inputs of magnitude at most m give finite outputs of magnitude at most (2Q+11) m; and a constant input v is reproduced in the end, from any memory up to 2^80, up to v (2^-21 + 2^-36 (sampleRate/cutoff)^2) + 2^-149. The code violates it for sample rates below 880 Hz until the first setFreq: init leaves the cutoff at 440 Hz unclamped, the product of the poles exceeds 1, and at 600 Hz a single 1 overflows the output within 121 samples.", "quantifier": "all call histories, sample rates 889..2^18 (4..2^18 after a setFreq), cutoffs, Q, inputs with 2^-149 <= m <= 2^120; sin and cos accurate to 2^-53", "why_tests_cant": "limit behaviour over a continuum of settings, with rounding", "anchors": ["include/subcollider/ugens/RLPF.h: updateCoefficients, tick, reset, init"]}
{"id": "C50", "title": "Moog ladder outputs stay bounded", "statement": "Stilson: every output is finite and at most 1 in magnitude, for finite samples of any size, any resonance but NaN and cutoffs up to 300 sample rates. Krajeski: the same for cutoffs from 1 Hz to 0.3 sample rates; and with no assumption on calls, samples (NaN, infinities) or memory every output is finite and below 2^100. The bound 1 is violated by a NaN sample, which sends a Krajeski filter below -2^80.", "quantifier": "all call histories, inputs, sample rates 4000..2^18; tanh with values in [-1,1], pow accurate to 2^-52", "why_tests_cant": "unbounded histories over a continuum of settings", "anchors": ["include/subcollider/ugens/StilsonMoogLadder.h: tick", "include/subcollider/ugens/KrajeskiMoogLadder.h: tick, setCutoff, setResonance"]}
{"id": "C51", "title": "Moog ladder setters commute", "statement": "Setting cutoff and resonance (and drive, oversampling) in either order gives the same filter, from any state: Oberheim, Improved, Microtracker, RK simulation, MusicDSP, and Stilson after any calls with cutoffs up to 300 sample rates. Krajeski violates it: setCutoff does not recompute the feedback, so the two orders leave different filters for every resonance from 0.01 and cutoff from a tenth of the sample rate; setting the resonance once more mends it.", "quantifier": "all states, cutoffs, resonances", "why_tests_cant": "all pairs of floats in all states", "anchors": ["include/subcollider/ugens/KrajeskiMoogLadder.h: setCutoff, setResonance", "include/subcollider/ugens/OberheimMoogLadder.h: setCutoff, setResonance", "include/subcollider/ugens/ImprovedMoogLadder.h: setCutoff, setResonance", "include/subcollider/ugens/MicrotrackerMoogLadder.h: setCutoff, setResonance", "include/subcollider/ugens/RKSimulationMoogLadder.h: setCutoff, setResonance", "include/subcollider/ugens/MusicDSPMoogLadder.h: setCutoff, setResonance", "include/subcollider/ugens/StilsonMoogLadder.h: setCutoff, setResonance"]}
{"id": "C52", "title": "Stilson gain table index in bounds", "statement": "For every history with finite cutoffs up to 300 sample rates (either sign), any resonance and any samples, no call reads outside the 199-entry table or converts an out-of-range number to int, and the feedback gain lies between 0 and the resonance. The code violates it for a NaN cutoff and for every cutoff of 512 sample rates or more: the conversion of the index is undefined. The uninitialised resonance read by init leaves no trace.", "quantifier": "all call histories, sample rates 4000..2^18", "why_tests_cant": "all floats, undefined behaviour", "anchors": ["include/subcollider/ugens/StilsonMoogLadder.h: init, setCutoff, setResonance"]}
{"id": "C53", "title": "Tape output bounded", "statement": "Tape output is in [-1,1] for every sequence of ticks, bias and gain changes and resets with |input| <= 2^a and |pregain| <= 2^(126-a). Violated outside: one product that overflows makes the envelope follower infinite and the output NaN for ever, even after the gain is back to normal. Mono processing equals the left channel of stereo processing.", "quantifier": "all call sequences", "why_tests_cant": "unbounded histories", "anchors": ["include/subcollider/ugens/Tape.h: tick, tickStereo, EnvelopeFollower, setBias, setPregain, reset"]}
{"id": "C54", "title": "Voices are silent when idle and ExampleVoice keeps to its amplitude", "statement": "After any calls with sane arguments, no ExampleVoice sample exceeds the amplitude in force (1/2, or the last setAmplitude limited to [0,1]) in either channel, and once isActive is false every sample of an ExampleVoice or a SuperSaw is exactly 0 until the next trigger or positive gate. The code violates this for insane frequencies: after one tick with an infinite or NaN frequency every further ExampleVoice sample is NaN, idle or not and whatever setFrequency does later, until init or reset; with frequency 0 a SuperSaw gives NaN in both channels from the second sample on, idle or not.", "quantifier": "all histories of calls, sample rates, and math libraries whose exp, sin and cos keep to their ranges", "why_tests_cant": "all histories of calls of any length", "anchors": ["include/subcollider/ExampleVoice.h: tick, setFrequency, setAmplitude, isActive", "include/subcollider/ugens/SuperSaw.h: tick, gate, isActive"]}
{"id": "C55", "title": "A held ADSR note settles at the sustain level", "statement": "With attack up to 33300 samples and decay up to 8000 samples a held note reaches the peak 1 and then stays exactly at the sustain level for ever. The code violates this for long decays: from 33800 samples on, with the default sustain level, the value stalls above 0.701 and the envelope never enters sustain.", "quantifier": "all reachable states, all numbers of samples, every exp accurate to 2^-23", "why_tests_cant": "settling and stalling are statements about unbounded time in float arithmetic", "anchors": ["include/subcollider/ugens/EnvelopeADSR.h: tick"]}
{"id": "C56", "title": "DBAmp maps decibels to amplitude", "statement": "0 dB gives exactly 1, the map is monotone on all non-NaN inputs (infinities included), attenuations never exceed 1 and gains are never below 1, and for |dB| <= 200 the result is within a relative 2^-18 of 10^(dB/20).", "quantifier": "all inputs, every monotone pow accurate to 2^-23", "why_tests_cant": "all 2^32 inputs and every conforming pow", "anchors": ["include/subcollider/ugens/DBAmp.h: process"]}
{"id": "C57", "title": "Oscillators play the requested frequency", "statement": "After init and setFrequency(f), 0 <= f <= sampleRate/2, sample n of SinOsc is sin(2*pi*f*n/sampleRate) within (n+1)*2^-19 (given std::sin within 2^-22 over one cycle), and sample n of LFTri is the triangle of period 1 at phase p0 + n*f/sampleRate, phase drift at most n*2^-23.", "quantifier": "all sample rates, frequencies, sample counts", "why_tests_cant": "Any run length; tests compare a few samples at one frequency.", "anchors": ["include/subcollider/ugens/SinOsc.h: tick, updatePhaseIncrement", "include/subcollider/ugens/LFTri.h: tick, init"]}
{"id": "C58", "title": "Phasor frequency and drift", "statement": "Over [0,end) with |rate| <= end, the i-th output after set is i*rate modulo end, with error at most (i+1)*2^-22*end. After setFrequency(f), |f| <= sr/2, it is i*f/sr turns up to (i+1)*2^-21 turns.", "quantifier": "all rates, frequencies, sample rates >= 1, tick counts", "why_tests_cant": "error accumulates over unbounded runs", "anchors": ["include/subcollider/ugens/Phasor.h: setFrequency, set, tick"]}
{"id": "C59", "title": "BufRd interpolation accuracy", "statement": "With samples bounded by 2^j (-100 <= j <= 96), n <= 2^24 and phases >= 0 (any phase when not looping), linear mode is within 2^(j-22) of the exact straight line between the two frames around the position, and cubic mode within 2^(j-17) of the exact Catmull-Rom curve through the four frames around it, in both channels. Exception: a reader that does not loop takes the last frame of the buffer as predecessor of the first, so cubic output in [0,1) depends on the end of the buffer.", "quantifier": "all buffers, phases, both channels", "why_tests_cant": "all floats; the exception needs a buffer whose ends differ", "anchors": ["include/subcollider/ugens/BufRd.h: tick, tickStereo, cubicInterp, wrapIndex", "include/subcollider/types.h: lerp"]}
{"id": "C60", "title": "CombC fractional delay accuracy", "statement": "For any delay of more than two samples (plus rounding) inside a line of at most 2^K samples and signal level 2^j, tick returns the Catmull-Rom interpolation of the signal at an age within 2^(K-24) samples of the requested delay, up to an error of 2^(j-17). Between one and two samples the code violates this: the newest interpolation point is the oldest sample of the line.", "quantifier": "all inputs, delays, call histories", "why_tests_cant": "all floats; the violation needs old and new signal to differ", "anchors": ["include/subcollider/ugens/CombC.h: tick"]}
{"id": "C61", "title": "CombC feedback and stability", "statement": "At every moment the feedback coefficient belongs to the delay and decay times last set: it is finite and at most 1 in size for every decay time but NaN, has the sign of the decay time, is 0 for 0 and +-1 for +-infinity, and is within 2^-16 of 0.001^(delay/|decay|). The signal in the line never exceeds a level A while inputs stay within (1 - 1.26 phi - 2^-30) A and |feedback| <= phi, whatever calls are mixed in; for whole delays inputs within (1 - |feedback|) A suffice.", "quantifier": "all call sequences, all settings, all inputs", "why_tests_cant": "unbounded runs", "anchors": ["include/subcollider/ugens/CombC.h: updateFeedback, setDelayTime, setDecayTime, tick"]}
{"id": "C62", "title": "Downsampler computes the mean of its four-pole lowpass", "statement": "For output rates in [1, 2^90] and after any calls, read returns the mean over the (at most 1000) samples written since the last read of the exact four-stage one-pole lowpass with coefficient 1-exp(-2 pi 0.45/factor), applied to everything written since the last init, factor change or reset, within 2^-12 of the signal level, for ever (errors do not build up). Constant input comes out unchanged within 2^-11 of the level after 300 samples.", "quantifier": "all call sequences, all inputs, run lengths below 2^64", "why_tests_cant": "unbounded error accumulation", "anchors": ["include/subcollider/ugens/Downsampler.h: init, write, read"]}
{"id": "C63", "title": "XPlay phasor stays in its window", "statement": "If the rate is at most one loop length per sample and the loop is not below 2^-20 of its end position, the phasor stays in the window of two loop lengths from the loop start, below it by rounding only, for any number of ticks. The code violates it for faster rates: it takes off only one window per tick, so above two loop lengths per sample the phasor drifts away (2 frames, rate 5: position 30 after 30 ticks).", "quantifier": "all sessions, any number of ticks", "why_tests_cant": "unbounded runs", "anchors": ["include/subcollider/ugens/XPlay.h: tick"]}
{"id": "C64", "title": "XPlay.init keeps the buffer", "statement": "Calling init again should keep playing the buffer that was set. The code violates this: init detaches the reader from the buffer but keeps the player's own pointer, so whatever was played before, every output after init is zero until setBuffer is called again.", "quantifier": "all sessions before, all calls other than setBuffer after", "why_tests_cant": "all histories", "anchors": ["include/subcollider/ugens/XPlay.h: init, setBuffer"]}
{"id": "C65", "title": "XPlay output level", "statement": "Every output of any session is finite and at most 1.4143 times the (power of two) level of the buffers handed over, or 1.769 times if the reader is ever set to cubic interpolation; the first factor is really reached, because a full-length loop reads the same frame with both heads, and the cubic reader overshoots.", "quantifier": "all sessions with fade times up to 8 s, including any changes of the reader's interpolation and loop flag", "why_tests_cant": "all histories with rounding", "anchors": ["include/subcollider/ugens/XPlay.h: tick, setFadeTime, reader"]}
{"id": "C66", "title": "XPlay reports done exactly after its release", "statement": "While the gate is open and something is playing isDone is false; after the gate closes a finite number of ticks makes isDone true, and it stays true with silent output, whatever the interpolation. The code violates it when there is nothing to play (no valid buffer, empty loop): ticks then change nothing and isDone never becomes true.", "quantifier": "all sessions, all gate values other than NaN", "why_tests_cant": "unbounded waits", "anchors": ["include/subcollider/ugens/XPlay.h: setGate, isDone, tick"]}
{"id": "C67", "title": "XPlay bounces inside its loop", "statement": "In bounce mode both read heads are between the loop start and the loop end after any session. The end itself is included: with the end at the end of the buffer the head lands on position n, which the reader wraps to frame 0, so the first frame of the buffer is heard at the far turning point (code violation).", "quantifier": "all sessions", "why_tests_cant": "all histories with rounding", "anchors": ["include/subcollider/ugens/XPlay.h: tick"]}
{"id": "C68", "title": "XPlay plays the frames in order", "statement": "A new XPlay given a buffer recorded at its own sample rate (at most 2^22 frames) outputs frame m times the m-th value of the attack envelope, correctly rounded, on both channels, for the whole first pass, whatever interpolation and loop flag its reader is given.", "quantifier": "all buffers, all sample rates 1..2^18, all reader settings", "why_tests_cant": "all contents", "anchors": ["include/subcollider/ugens/XPlay.h: init, setBuffer, tick"]}
{"id": "C69", "title": "RLPF settings stay in range", "statement": "After any calls with numbers the cutoff is between 1 Hz and 0.4951 times the sample rate, Q is between 0.1 and 30, and the coefficients are those of the current settings; values in range are kept exactly, the setters keep the filter memory and commute. The code violates it for NaN, which passes both clamps.", "quantifier": "all call histories", "why_tests_cant": "all histories", "anchors": ["include/subcollider/ugens/RLPF.h: init, setFreq, setResonance"]}
{"id": "C70", "title": "RLPF: NaN sticks until reset", "statement": "After a NaN sample, or one sample with a NaN cutoff, every output is NaN until reset, whatever calls follow. reset then leaves nothing of the history but the two settings: the filter is equal to a new one given these settings.", "quantifier": "all call histories", "why_tests_cant": "all histories", "anchors": ["include/subcollider/ugens/RLPF.h: tick, setFreq, reset"]}
{"id": "C71", "title": "Stilson: one non-finite sample mutes the filter", "statement": "After a single NaN or infinite sample every output is exactly 0, whatever is set or played, until reset; reset clears all memory and keeps the settings.", "quantifier": "all states and call histories", "why_tests_cant": "all histories", "anchors": ["include/subcollider/ugens/StilsonMoogLadder.h: tick, reset"]}
{"id": "C72", "title": "Oberheim ladder outputs stay bounded", "statement": "For any resonance and any samples but NaN (infinities included): with cutoffs from 1 Hz to 0.2499 sample rates, moved at will, every output is in [-1,1] (sample rate at least 8 kHz); with cutoffs down to 2^-25 sample rates every output is at most 1 + 2^-21; with a cutoff up to 0.475 sample rates set on an empty memory and left alone every output is at most 16; with cutoffs up to 0.475 sample rates moved at will every output is finite and at most 2^21.", "quantifier": "all call histories, inputs, sample rates 4000..2^18; tanh with values in [-1,1], tan accurate to 2^-51 on (0, 1.5]", "why_tests_cant": "unbounded histories of cutoff modulation over a continuum of settings", "anchors": ["include/subcollider/ugens/OberheimMoogLadder.h: tick, setCutoff, setResonance"]}
{"id": "C73", "title": "Oberheim ladder: NaN sticks, reset recovers", "statement": "From a NaN sample on every output is NaN, whatever is set or played, until reset; after a reset the outputs are in [-1,1] again whatever the samples before it were.", "quantifier": "all states, call histories and samples", "why_tests_cant": "all histories", "anchors": ["include/subcollider/ugens/OberheimMoogLadder.h: tick, reset"]}
{"id": "C74", "title": "Oberheim ladder above half the sample rate", "statement": "A user may expect any positive cutoff to give a stable filter. The code violates it: cutoffs above half the sample rate are accepted and the filter runs away (28.8 kHz at 48 kHz: one sample of 1 and silence after it give an output above 10^9 within 40 samples).", "quantifier": "one refuting history", "why_tests_cant": "the failing region lies outside the settings a test suite uses", "anchors": ["include/subcollider/ugens/OberheimMoogLadder.h: setCutoff, tick"]}
{"id": "C75", "title": "ExampleVoice vibrato is measured in semitones around the base frequency", "statement": "With a vibrato depth of 0 < d <= 1 semitones the oscillator runs, in every sample, at base * 2^(m*d/12) for a modulator value m in [-1,1], at most 0.22 % flat and 0.0001 % sharp. With the vibrato off setFrequency(f) makes it run at exactly f. The code violates the documented behaviour otherwise: a depth of 24 semitones can give a negative frequency, and setVibratoDepth(0) leaves the oscillator at its last modulated frequency instead of the base frequency until setFrequency is called.", "quantifier": "all histories of calls, base frequencies from 2^-60 to 2^40 Hz, depths, modulator values", "why_tests_cant": "all modulator values and histories", "anchors": ["include/subcollider/ExampleVoice.h: tick, setVibratoDepth, setFrequency"]}
{"id": "C76", "title": "Vibrato and auto-pan of ExampleVoice draw on one random sequence", "statement": "Documented as two independent LFNoise2 modulators; at all times both interpolate between consecutive points of the same random sequence (default seed). With setVibratoRate(1) the two are equal for ever: one number m gives both the pitch, base*(1 + m*depth*ln2/12), and the pan position m*panDepth, so independence is violated.", "quantifier": "all histories of calls, run lengths, sample rates", "why_tests_cant": "a relation between two internal signals at all times", "anchors": ["include/subcollider/ExampleVoice.h: init, tick, reset", "include/subcollider/ugens/LFNoise2.h: init, reset"]}
{"id": "C77", "title": "reset makes a voice repeat itself", "statement": "Take an ExampleVoice with any settings made after init, play it in any way (trigger, release, gate, ticks, resets) and reset it: every following sample equals the one the same calls give on the voice as it was before playing, provided the vibrato is not switched off afterwards. The code violates this if it is: reset leaves the modulated frequency in the oscillator. SuperSaw's reset does not restore the state after init: all voices restart at phase 0 rather than at their random phases (with the default seed the first sample, below 15 times full scale after init, is above 50 times full scale).", "quantifier": "all settings, playing histories and continuations", "why_tests_cant": "equality of two unbounded runs for all histories", "anchors": ["include/subcollider/ExampleVoice.h: reset", "include/subcollider/ugens/SuperSaw.h: reset"]}
{"id": "C78", "title": "SuperSaw output is bounded", "statement": "With frequencies from sampleRate/4096 to sampleRate/5, vibrato depth up to 6 and detune up to 12 semitones, every SuperSaw sample is finite, and from the second sample after init, reset or a change of frequency, vibrato depth or detune on, both channels stay within 3.78 * 2^(|depth|/6) + 0.02. The code violates nominal full scale: voices in phase, as reset leaves them, reach 3.7, and the first sample after a frequency change can exceed 1000, both with the default seed.", "quantifier": "all histories of calls, random draws, run lengths, sample rates from 2 kHz to 1.6 MHz, pow/sin/cos accurate to 2^-22", "why_tests_cant": "all random phases and run lengths; the worst alignment of seven detuned voices is practically never hit", "anchors": ["include/subcollider/ugens/SuperSaw.h: tick, setFrequency, setVibratoDepth, setDetune, setSpread", "include/subcollider/ugens/SawDPW.h: tick"]}
{"id": "C79", "title": "SuperSaw voices are spread evenly over the detune range", "statement": "In every sample voice i (0..6) runs at frequency * 2^((m*depth + (i/6 - 1/2)*detune)/12), m in [-1,1] being its own vibrato, within a relative 1.5e-6, whatever the order in which the settings were made; the middle voice is in tune without vibrato.", "quantifier": "all histories of calls, settings in range, voices, random draws", "why_tests_cant": "all settings and histories", "anchors": ["include/subcollider/ugens/SuperSaw.h: tick, setDetune, setVibratoDepth, setFrequency"]}
{"id": "C80", "title": "FVerb has no undefined behaviour in the range of use", "statement": "With sample rates from 45 Hz to 2^31 and non-NaN settings, every history of calls with arbitrary samples (NaN and infinities included) runs without an index out of bounds or a cast out of range, given C48 and C85. The code violates this beyond: a NaN predelay, modulator frequency or modulator depth makes the next frame undefined, and at 1 Hz the modulated all-pass lines are read outside their buffers.", "quantifier": "all histories of calls, rates, settings and samples, all math libraries with sin in [-1,1]", "why_tests_cant": "all rates and modulator phases", "anchors": ["include/subcollider/ugens/fverb/FVerbDSP.h: compute", "include/subcollider/ugens/fverb/FVerb.cpp: init, setPredelay, setModulatorFrequency, setModulatorDepth"]}
{"id": "C81", "title": "FVerb onset and cross-feed times", "statement": "After init or reset, whatever is played and set, the left output is 0 for the first 8.94 ms and the right for the first 11.86 ms (in frames, as floor of the tap time, at the rate limited to [1, 192000]). Sound fed to one side only reaches the other output first: the left input alone leaves the left output 0 for 66.9 ms, the right input alone leaves the right output 0 for 70.9 ms.", "quantifier": "all histories before and after, rates from 45 Hz, settings, samples (also NaN and infinite)", "why_tests_cant": "all rates and signals", "anchors": ["include/subcollider/ugens/fverb/FVerbDSP.h: compute", "include/subcollider/ugens/FVerb.h: process"]}
{"id": "C82", "title": "FVerb: silence in, silence out", "statement": "After init or reset, as long as all input samples are 0 all output samples are 0, whatever non-NaN settings are made in between and however long it runs.", "quantifier": "all histories before, all settings and run lengths", "why_tests_cant": "unbounded run length", "anchors": ["include/subcollider/ugens/fverb/FVerbDSP.h: compute, instanceClear", "include/subcollider/ugens/fverb/FVerb.cpp: reset"]}
{"id": "C83", "title": "FVerb reset equals a fresh reverb with the same settings", "statement": "After reset, every further output equals that of a new reverb on which only the last init and the settings made since are repeated, whatever had been played before.", "quantifier": "all histories before and after", "why_tests_cant": "equality of two unbounded runs for all histories", "anchors": ["include/subcollider/ugens/fverb/FVerb.cpp: reset", "include/subcollider/ugens/fverb/FVerbDSP.h: instanceClear"]}
{"id": "C84", "title": "FVerb output does not depend on the block size", "statement": "Processing a block in two parts, the first not empty, gives the same output as processing it at once, now and in all later calls.", "quantifier": "all histories, blocks and splits", "why_tests_cant": "all splits of all signals", "anchors": ["include/subcollider/ugens/fverb/FVerbDSP.h: compute", "include/subcollider/ugens/fverb/FVerb.cpp: process"]}
{"id": "C85", "title": "FVerb runs for ever", "statement": "The reverb can process any number of frames. The code violates this: the int frame counter overflows, so every history with 2^31 or more frames since init without reset is undefined (12 h 26 min at 48 kHz), whatever the settings and samples. With a reset at least every 2^31 - 1 frames it does run for ever.", "quantifier": "all histories, rates, samples", "why_tests_cant": "twelve hours of audio", "anchors": ["include/subcollider/ugens/fverb/FVerbDSP.h: compute"]}
{"id": "C86", "title": "FVerb recovers from NaN", "statement": "Invalid input should fade out. The code violates this: after one block with a NaN cutoff, diffusion, density, decay or damping, both outputs are NaN from 11.9 ms on for ever, even after valid settings; after one NaN sample on the right (predelay 0) the left output is NaN from 8.9 ms and the right from 70.9 ms later on for ever, and after one on the left the right from 11.9 ms and the left from 66.9 ms. reset cures it (C83).", "quantifier": "all histories, signals and later settings", "why_tests_cant": "for ever, for all continuations", "anchors": ["include/subcollider/ugens/fverb/FVerbDSP.h: compute", "include/subcollider/ugens/fverb/FVerb.cpp: setters"]}
{"id": "C87", "title": "reset of a ladder equals a fresh one with the same settings", "statement": "After reset, each of the seven Moog ladders gives exactly the outputs of a newly initialised one on which only the settings made so far are repeated, whatever had been played before (NaN and infinities included). For Stilson this holds for every history that is defined.", "quantifier": "all histories before and after, all rates, samples, settings and math libraries", "why_tests_cant": "equality of two unbounded runs for all histories", "anchors": ["include/subcollider/ugens/KrajeskiMoogLadder.h: reset, tick, setters", "include/subcollider/ugens/StilsonMoogLadder.h: reset, tick, setters", "include/subcollider/ugens/MicrotrackerMoogLadder.h: reset, tick, setters", "include/subcollider/ugens/MusicDSPMoogLadder.h: reset, tick, setters", "include/subcollider/ugens/ImprovedMoogLadder.h: reset, tick, setters", "include/subcollider/ugens/OberheimMoogLadder.h: reset, tick, setters", "include/subcollider/ugens/RKSimulationMoogLadder.h: reset, tick, setters"]}
{"id": "C88", "title": "A ladder recovers from a NaN sample", "statement": "One invalid sample should be forgotten. The code violates this in the Microtracker, MusicDSP, Improved and RK ladders: after one NaN sample every further output is NaN, whatever is set and played, until reset (Microtracker: from the sample after it, as its output lags by one).", "quantifier": "all states, later samples and settings", "why_tests_cant": "for ever, for all continuations", "anchors": ["include/subcollider/ugens/MicrotrackerMoogLadder.h: reset, tick, setters", "include/subcollider/ugens/MusicDSPMoogLadder.h: reset, tick, setters", "include/subcollider/ugens/ImprovedMoogLadder.h: reset, tick, setters", "include/subcollider/ugens/RKSimulationMoogLadder.h: reset, tick, setters"]}
{"id": "C89", "title": "Improved ladder output is bounded", "statement": "At sample rates from 4 kHz to 2^18 Hz every output of the Improved ladder is finite and at most 82 in magnitude: for finite samples and drives of any size and sign, and for any cutoff and resonance except NaN (infinite, negative and above the sample rate included), changed in any order at any time.", "quantifier": "all histories of calls, all math libraries with tanh within [-1,1] and saturated from 20 on", "why_tests_cant": "unbounded run length, all float inputs", "anchors": ["include/subcollider/ugens/ImprovedMoogLadder.h: tick, setCutoff, setResonance, setDrive"]}
{"id": "C90", "title": "RK ladder output is bounded", "statement": "At sample rates from 4 kHz to 2^18 Hz and cutoffs from 0 to m/64 of the sample rate (1 <= m <= 64, the initial 1 kHz included), every output of the Runge-Kutta ladder is finite and at most 16 + 4m in magnitude (144 up to the Nyquist frequency): for finite samples and drives of any size, any resonance except NaN and any oversampling factor, changed in any order at any time.", "quantifier": "all histories of calls", "why_tests_cant": "unbounded run length, all float inputs", "anchors": ["include/subcollider/ugens/RKSimulationMoogLadder.h: tick, rungekutteSolver, calculateDerivatives, clip, setters"]}
{"id": "C91", "title": "Microtracker ladder output is bounded at low resonance", "statement": "At sample rates from 4 kHz to 2^18 Hz, with resonance at most 0.24 and inputs of magnitude at most 2^j (0 <= j <= 60), every output of the Microtracker ladder is finite and at most 27 * 2^j in magnitude, for any cutoff that is neither NaN nor negative, changed with the resonance in any order at any time. (For higher resonance no bound is claimed.)", "quantifier": "all histories of calls", "why_tests_cant": "unbounded run length, all float inputs", "anchors": ["include/subcollider/ugens/MicrotrackerMoogLadder.h: tick, fastTanh, setCutoff, setResonance"]}
{"id": "C92", "title": "MusicDSP ladder output is bounded", "statement": "Inputs of magnitude up to 1 give finite outputs of magnitude at most 61/64, with cutoffs (from 1 Hz) and resonances changed in any order at any time: for any resonance except NaN with cutoffs up to 1/25 of the sample rate, for resonance up to 0.5 with cutoffs up to 0.075 of it, for resonance up to 0.22 with cutoffs up to 0.15 of it; whatever the member resonance held before init. The code violates this at higher settings: at 48 kHz, cutoff 20 kHz and resonance 1, a certain sequence of fifteen inputs of magnitude 1 leaves the filter giving NaN, whatever is set and played afterwards, until reset.", "quantifier": "all histories of calls, sample rates up to 2^18 (from 25000, 13334, 6667 for the three ranges), all math libraries with sine within 2^-53", "why_tests_cant": "unbounded run length, all float inputs and libraries", "anchors": ["include/subcollider/ugens/MusicDSPMoogLadder.h: init, tick, setCutoff, setResonance"]}
{"id": "C93", "title": "The playback loader stores a file in its buffer", "statement": "loadAudioFile of a file with one or two channels on any reachable allocator is never undefined, succeeds exactly when there is a free run of frames times channels floats, otherwise leaves the allocator unchanged; a loaded file can be read back frame by frame (mono on both sides), and no live buffer is touched. The code violates this for three or more channels: the buffer is sized for two but all channels are stored, so the stores leave the pool or run past the buffer (a two-frame, three-channel file overwrites a live neighbour), and frame i holds items 2i and 2i+1 of the stream.", "quantifier": "all reachable allocator states, pool sizes, files", "why_tests_cant": "all allocator histories and file shapes", "anchors": ["examples/jack_playback_example.cpp: loadAudioFile", "examples/jack_xplay.cpp: loadAudioFile", "include/subcollider/BufferAllocator.h: allocate"]}
{"id": "C94", "title": "A Phasor reaches the end of its range", "statement": "A Phasor over [0, e) driven forward comes back round. With e at most 2^(k+24) and rates between 2^k and e/2 it does: its outputs can rise for at most 2e/2^k + 1 ticks. The code violates it for longer ranges: rates of at most 2^k never carry the output past 2^(k+24), and at rate 2^k it counts exactly for 2^24 ticks and then stays for ever. For the playback example (oversampled by two): of a file of at least 2^23 + 3 frames played forward at up to its own speed, nothing after frame 2^23 + 2 except the last frame is ever heard (2 min 55 s at 48 kHz).", "quantifier": "all ranges, rate sequences, call sequences; all files, JACK rates, block sizes, pointer moves that ask for forward play up to normal speed", "why_tests_cant": "needs files of minutes and runs of 2^24 ticks; for ever", "anchors": ["include/subcollider/ugens/Phasor.h: tick, wrap", "examples/jack_playback_example.cpp: jackProcessCallback"]}
{"id": "C95", "title": "Pointer column to playback rate", "statement": "For any pointer column and screen width (also 0) the playback rate is 0 or between 0.2499 and 4.001 in size. For columns and widths up to 2^24 it is 0 in the dead zone of 2 % around the centre and otherwise within a relative 2^-18 of the geometric scale from 1/4 at its edge to 4 at the border, negative on the left, clamped outside the screen.", "quantifier": "all columns and widths; all math libraries with exp and log accurate to the stated error", "why_tests_cant": "all integer pairs; real exponential", "anchors": ["examples/jack_playback_example.cpp: main, pointer loop"]}
{"id": "C96", "title": "The playback example never misbehaves", "statement": "After loading a file of one or two channels with samples up to 2^j, every sequence of process callbacks, pointer moves and sample-rate changes is free of undefined behaviour, yields as many frames as asked for, and no sample exceeds 2^(j+1).", "quantifier": "all allocator states, files, file and JACK rates, call sequences of any length", "why_tests_cant": "unbounded interleavings and arbitrary rates", "anchors": ["examples/jack_playback_example.cpp: configurePlayback, jackProcessCallback, jackSampleRateCallback", "include/subcollider/ugens/BufRd.h: tickStereo", "include/subcollider/ugens/Downsampler.h: write, read", "include/subcollider/ugens/Lag.h: tick"]}
{"id": "C97", "title": "Normal-speed playback is faithful", "statement": "With file rate equal to JACK rate (8 kHz to 2^24 Hz), the pointer untouched and at most 2^23 frames, the k-th output frame is within 2^-10 of the file's level of the mean of values 2k and 2k+1 of the four-pole 0.45-rate lowpass of the looped file doubled in rate by cubic interpolation: the frames themselves and 9/16 (x1 + x2) - 1/16 (x0 + x3) between them. No drift, for ever, for blocks of any size.", "quantifier": "all files up to 2^23 frames and level 2^95, all rates, block sizes and run lengths", "why_tests_cant": "absence of drift over unbounded time against real arithmetic", "anchors": ["examples/jack_playback_example.cpp: configurePlayback, jackProcessCallback", "include/subcollider/ugens/Phasor.h: tick", "include/subcollider/ugens/BufRd.h: tickStereo", "include/subcollider/ugens/Downsampler.h: write, read"]}
{"id": "C98", "title": "Moog example: pointer to cutoff and resonance", "statement": "Pointer column x on a screen of w columns stores the cutoff 100 * 80^u, u = x/w clamped to [0,1], within a relative 2^-16; row y of h stores the resonance 0.99 * (1 - v), v = y/h clamped, within 2^-23 (columns, rows and sizes up to 2^24). For any integers at all, a screen of size 0 included, the cutoff is a finite number between 99.9 and 8001 and the resonance one between 0 and 1.", "quantifier": "all pointer positions and screen sizes; all math libraries with exp and log accurate to the stated error", "why_tests_cant": "all integer pairs; real exponential", "anchors": ["examples/moog_example.cpp: main, pointer loop"]}
{"id": "C99", "title": "Moog example: the output is bounded", "statement": "Whatever the pointer does and whenever the sample-rate callback comes, each sample of the process callback is one finite number of size at most 0.3000002, the same on both channels: it can neither clip nor turn into NaN.", "quantifier": "all sample rates 32800..262144, all interleavings of samples, pointer stores and rate callbacks; math libraries with the stated accuracy", "why_tests_cant": "unbounded interleavings; feedback filter under modulation", "anchors": ["examples/moog_example.cpp: jackProcessCallback, jackSampleRateCallback, main", "include/subcollider/ugens/OberheimMoogLadder.h: tick", "include/subcollider/ugens/Lag.h: tick", "include/subcollider/ugens/SawDPW.h: tick"]}
{"id": "C100", "title": "Moog example: the smoothed cutoff", "statement": "The cutoff given to the filter stays within what the pointer can ask for. While no sample-rate callback comes it is between 99 Hz and 8192 Hz at every sample. The code violates it in the callback: jackSampleRateCallback re-initialises the two smoothers and does not restore their values (main does, 'to prevent initial transient'), so the first sample after it sets a cutoff of at most 9 Hz wherever the pointer is, even if the rate is the same.", "quantifier": "all sample rates 32800..262144, all event sequences", "why_tests_cant": "rounding drift of the smoother over unbounded runs; all histories before the callback", "anchors": ["examples/moog_example.cpp: jackProcessCallback, jackSampleRateCallback, main", "include/subcollider/ugens/Lag.h: init, tick"]}
{"id": "C101", "title": "JACK voice example: the output is bounded", "statement": "Whatever lines are typed and whenever the sample-rate callback comes, the process callback fills every frame it is asked for, both channels with finite values of size at most 1/2.", "quantifier": "all sample rates 1000..262144, all sequences of typed lines, rate callbacks and blocks of any size; any math library with exp in [0,1] for arguments up to 0 and sine and cosine in [-1,1]", "why_tests_cant": "unbounded interleavings of typing and audio", "anchors": ["examples/jack_example.cpp: jackProcessCallback, jackSampleRateCallback, main", "include/subcollider/ExampleVoice.h: process"]}
{"id": "C102", "title": "JACK voice example: the key switches the note", "statement": "Before the first empty line there is silence; while the note is on the voice is active; once a block has been played with the note off, at most three seconds of sound are left and then every sample is exactly 0. All this holds as long as no sample-rate callback comes. The code violates it otherwise: jackSampleRateCallback re-initialises the voice and leaves the remembered gate alone, so a held note falls silent and stays silent, whatever the rate, until an empty line is typed.", "quantifier": "all sample rates 1000..262144, all sequences of typed lines and blocks", "why_tests_cant": "unbounded sequences; the defect needs a rate callback while a note is held", "anchors": ["examples/jack_example.cpp: jackProcessCallback, jackSampleRateCallback, main", "include/subcollider/ugens/EnvelopeADSR.h: init, gate"]}
{"id": "C103", "title": "JACK voice example: the pitch is the one asked for", "statement": "While no sample-rate callback comes every frame is played within 0.58 percent (a tenth of a semitone) of the last frequency typed between 20 and 20000, or 440. The code violates it after jackSampleRateCallback: re-initialising the voice drops the settings of main, so the vibrato is back at half a semitone and the first frame is 2.8 percent flat.", "quantifier": "all sample rates 1000..262144, all typed numbers including NaN and infinities, all sequences of lines and blocks", "why_tests_cant": "all histories of typing; real-number pitch ratio", "anchors": ["examples/jack_example.cpp: jackProcessCallback, jackSampleRateCallback, main", "include/subcollider/ExampleVoice.h: init, tick"]}
{"id": "C104", "title": "XPlay example: the pointer sets the loop", "statement": "The program announces that the pointer sets loop start and end with 200 ms smoothing. The code violates this: the call that would use the smoothed values is commented out, so the output is the same, bit for bit, for any two runs that differ only in what the pointer does.", "quantifier": "all math libraries, buffers, rates and event sequences", "why_tests_cant": "absence of any influence over all runs", "anchors": ["examples/jack_xplay.cpp: jackProcessCallback, main"]}
{"id": "C105", "title": "XPlay example: safe and bounded", "statement": "After loading a file of one or two channels (at most 2^32 frames), any process callbacks, pointer moves and sample-rate changes return without any undefined operation, give as many frames as asked for, all finite and at most 1.769 times the level of the file.", "quantifier": "all files, allocator states, initial contents of the player, sample rates 1..2^18 and event sequences; any math library with sine and cosine accurate to an ulp and exp in [0,1] for arguments up to 0", "why_tests_cant": "unbounded histories with rounding", "anchors": ["examples/jack_xplay.cpp: loadAudioFile, configurePlayback, jackProcessCallback, jackSampleRateCallback", "include/subcollider/ugens/XPlay.h: init, setBuffer, setStartEnd, setFadeTime, tick"]}
{"id": "C106", "title": "XPlay example: the middle half of the file at half speed", "statement": "At any time the loop starts at a quarter of the file and is half as long as it, exactly; the head that is faded in stands inside it, up to 2^-20 of the file length at its start; and the step per sample is half the ratio of file rate to current JACK rate, within 2^-23.", "quantifier": "all files of 1 to 3145728 frames, all sample rates 1..2^18 for which a step is at most half the file, all event sequences", "why_tests_cant": "unbounded histories with rounding", "anchors": ["examples/jack_xplay.cpp: configurePlayback, jackProcessCallback, jackSampleRateCallback", "include/subcollider/ugens/XPlay.h: setStartEnd, updateLoopBounds, tick"]}
{"id": "C107", "title": "Supersaw example: no undefined behaviour, and what is played", "statement": "Whatever the pointer does and however the sample rate changes, with blocks of 1 to 8192 frames and fewer than 2^31 frames between two changes of rate the program performs no undefined operation, and each frame played is 90 % of the dry frame plus 10 % of what a reverb with the program's settings makes of the dry signal. Outside these limits the code violates it: a block of more than 8192 frames, an empty block before any other and 2^31 frames without a change of rate (12.4 hours at 48 kHz) all end in undefined behaviour.", "quantifier": "all sequences of pointer polls (also inside a block), blocks and sample rates 45..2^24, all random draws, any math library with sine in [-1,1]", "why_tests_cant": "unbounded histories; the limits are hours of playing", "anchors": ["examples/supersaw_example.cpp: jackProcessCallback, jackSampleRateCallback, main", "include/subcollider/ugens/FVerb.h: init, process"]}
{"id": "C108", "title": "Supersaw example: the dry signal is bounded", "statement": "Every frame sent to the reverb and mixed into the output is finite and at most 512 in size, at any cutoff and drive the pointer can set and over any changes of rate.", "quantifier": "all event sequences at sample rates 44100..225280, all random draws in [0,1], any math library of stated accuracy", "why_tests_cant": "unbounded histories with rounding", "anchors": ["examples/supersaw_example.cpp: jackProcessCallback", "include/subcollider/ugens/SuperSaw.h: tick", "include/subcollider/ugens/RKSimulationMoogLadder.h: tick"]}
{"id": "C109", "title": "Supersaw example: a change of sample rate keeps the sound", "statement": "A change of sample rate should leave the three notes decorrelated and the filter where the pointer put it. The code violates both: at the start the notes take their random phases from the seeds 42, 43 and 44, after a change of rate all three are the same voice but for the pitch; and the cutoff smoother restarts at 0, so with the next sample both filters are at 10 Hz or less although the pointer asks for 100 Hz or more. Without a change of rate the filters' cutoff stays between 99 Hz and 16384 Hz for ever.", "quantifier": "all event sequences and sample rates 44100..225280, all random draws, any math library of stated accuracy", "why_tests_cant": "all histories with rounding", "anchors": ["examples/supersaw_example.cpp: jackSampleRateCallback, main", "include/subcollider/ugens/SuperSaw.h: init", "include/subcollider/ugens/Lag.h: init"]}
{"id": "C110", "title": "Supersaw example: pointer to cutoff and drive", "statement": "Column x of w sets the cutoff to 100 * 120^(x/w) Hz within a relative 2^-16, row y of h the drive to 1 - y/h within 2^-24, fractions clamped to [0,1], and a drive d in [0,1] is a gain of 0.01 * 10000^d within a relative 2^-21; for any integers at all, an empty screen included, cutoff and drive stay in range and are never NaN.", "quantifier": "all pointer positions and screen sizes up to 2^24, any math library with exp, log and pow of stated accuracy", "why_tests_cant": "all positions, all conforming libraries", "anchors": ["examples/supersaw_example.cpp: driveFromNormalized, main"]}
{"id": "C111", "title": "FVerb: bounded output for moderate settings", "statement": "After init or reset and any settings, with a decay of at most 40 %, both input diffusions and the tail density at most 90 % and damping, low-pass and high-pass cutoffs of at least 100 Hz, the reverb is stable: whatever is fed in, for however long, every output sample is finite and at most 15000 times as large as the largest input sample.", "quantifier": "all histories up to the last init or reset, all settings in these ranges (predelay, amount and modulation arbitrary), all input signals with a bound between 1e-10 and 2^64, all sample rates from 45 Hz, any math library with sine and exponential of stated accuracy", "why_tests_cant": "a feedback network of 18 delay lines with rounding, over unbounded time and all signals", "anchors": ["include/subcollider/ugens/FVerb.h: process", "include/subcollider/ugens/fverb/FVerbDSP.h: compute"]}
{"id": "C112", "title": "FVerb and CombC: ownership of heap memory", "statement": "Any number of FVerb and CombC objects that are used within their lives and never copied touch and free memory correctly exactly when every initialised reverb processes a non-empty block before any empty one, and every CombC is initialised before it is used, and also before it is reset or destroyed unless its members started as zero. Then the live memory is known to the block: one per initialised reverb plus six of 4 x (largest block) samples, one line per initialised CombC, plus one line for every repeated CombC::init; reverbs give everything back on destruction. Refuted: a second CombC::init loses the first line for good; a plain CombC that is never initialised cannot be destroyed; and two objects of which one was copied from the other while initialised can never both be destroyed, whatever happens in between (the compiler-generated copies share the pointers).", "quantifier": "all programs: all interleavings of construction, init, process with any block sizes, setters, reset, copies, assignments and destruction over any number of objects of both classes", "why_tests_cant": "all histories of several objects; a leak or double free is not visible in any output", "anchors": ["include/subcollider/ugens/FVerb.h: FVerb", "include/subcollider/ugens/fverb/FVerb.cpp: allocateBuffers, freeBuffers, init, process, ~FVerb", "include/subcollider/ugens/CombC.h: init, ~CombC, reset"]}
{"id": "C113", "title": "Load meter of the supersaw example: exact running sum", "statement": "The CPU display of examples/supersaw_example.cpp never indexes its ring out of bounds and holds exactly the last 100 samples. As long as every block's load is zero or between 0.001 % and 8000 %, the running sum in double precision is exact for ever (adding and subtracting never drifts), and the displayed value is the mean of the last 100 loads (of all loads before there are 100) to within 1.3e-7 of itself; empty blocks do not count. Refuted without these bounds: after one block of an hour the display can be off for ever.", "quantifier": "all sequences of blocks of up to 1e9 frames, all rates between 1 Hz and 1 MHz (changing at will), all durations up to 1e15 ns", "why_tests_cant": "running sums drift only after long sessions; all sequences of durations", "anchors": ["examples/supersaw_example.cpp: process_callback (load measurement)"]}
{"id": "C114", "title": "SuperSaw's random starting phases", "statement": "Whatever the seed, every random number SuperSaw draws lies in [0,1) (a word that would round to 1 included), so all seven saws and vibratos start within their cycle. Two different seeds below 64 start at least one saw at different phases, more than 2^-16 of a cycle apart. The three notes of the supersaw example, seeded 42, 43 and 44, start apart in each of the seven voices by at least a hundredth of a cycle, either way round, and the bound on its dry signal (C108) holds with these numbers.", "quantifier": "all seeds, draws, sample rates; all pairs of seeds below 64", "why_tests_cant": "2^32 seeds and words; rounding to 1 happens for 1 word in 2^25", "anchors": ["include/subcollider/ugens/SuperSaw.h: init", "examples/supersaw_example.cpp: main"]}
{"id": "C115", "title": "Envelope segment times", "statement": "With T = time * sample rate (32 to 65536 samples), the attack of EnvelopeAR from level v follows 1-(1-v)e^(-n/T) to within T/4000000 until it is set to the peak, and its release follows v e^(-n/T) with the exponent right to 1/64. From silence the peak takes between 6.4 T and 7.7 T samples (T up to 2048), and a release from full level between 8.9 T and 9.5 T; any release is over after 9.5 T. The header's claim that 99.3% is covered in the set time fails for every time: after T samples the attack is at 65% at most and the release still has 36% left. EnvelopeADSR behaves the same: attack 6.4 T to 7.7 T, decay along s+(v-s)e^(-n/T), at least 5.2 T (from 0.3 away) and at most 7.8 T, release over after 9.5 T.", "quantifier": "all reachable states, times, sample rates and numbers of samples in the stated ranges; every exp accurate to 2^-23", "why_tests_cant": "rounding accumulates over up to 600000 samples; a test sees single times and sample rates", "anchors": ["include/subcollider/ugens/EnvelopeAR.h: setAttack, setRelease, updateAttackCoefficient, updateReleaseCoefficient, trigger, release, tick, isActive", "include/subcollider/ugens/EnvelopeADSR.h: setAttack, setDecay, setRelease, gate, tick, isActive"]}
{"id": "C116", "title": "Numbers printed by basic_example", "statement": "Example 1 prints sin(2 pi 440 i/48000) to (i+1) 2^-19. Example 2 prints a rising row, each value within 0.000121 of 1-e^(-(i+1)/480). Example 3 prints eight fixed numbers on every machine. In example 4 each printed peak is finite, is the largest absolute sample of its channel over the 100 blocks and is at most 0.8, and \"Voice active\" is always yes. In example 5 no store is out of bounds, and afterwards the output buffers show the tenth block of the voice and the processing buffers hold the ninth, whatever the buffers held before init.", "quantifier": "every C library with accurate exp and sin; any initial contents of the loop buffers", "why_tests_cant": "a run shows the numbers of one C library; the 6400 samples of example 4 and the buffers of example 5 are not printed", "anchors": ["examples/basic_example.cpp: main"]}
{"id": "C117", "title": "Inverting the input inverts the output", "statement": "Take any history of calls on a Lag, OnePoleLPF, DCBlock, LagLinear, Downsampler, RLPF, CombC or FVerb object, on a Stilson, Microtracker, RKSimulation, MusicDSP, Oberheim or Improved ladder, on Pan2, Balance2 or XFade2, or on a Tape whose bias stays 0, and negate every audio sample in it, leaving settings as they are. Then every output sample is exactly the negated one (zeros of either sign being equal), NaN and infinities included, and undefined behaviour occurs in both histories or in neither. Tape with a bias does not behave so, nor does the Krajeski ladder when fed NaN; for finite samples and its usual settings it does.", "quantifier": "all call histories, settings, sample rates, sample values; every C library whose tanh is odd", "why_tests_cant": "exact equality at every sample of every pair of histories; a clamp or a saturator that is off on one side only shows on the values near its edge", "anchors": ["include/subcollider/ugens/Lag.h: tick", "include/subcollider/ugens/OnePoleLPF.h: tick", "include/subcollider/ugens/DCBlock.h: tickStereo", "include/subcollider/ugens/LagLinear.h: tick", "include/subcollider/ugens/Downsampler.h: write, read", "include/subcollider/ugens/RLPF.h: tick", "include/subcollider/ugens/CombC.h: tick", "include/subcollider/ugens/fverb/FVerbDSP.h: compute", "include/subcollider/ugens/StilsonMoogLadder.h: tick", "include/subcollider/ugens/KrajeskiMoogLadder.h: tick", "include/subcollider/ugens/RKSimulationMoogLadder.h: clip", "include/subcollider/ugens/Tape.h: tick"]}
{"id": "C118", "title": "Silence in, silence out", "statement": "From init, or from reset in any state, as long as all input samples are zero every output sample of Lag, OnePoleLPF, DCBlock, LagLinear, Tape (with any bias), RLPF, Downsampler, CombC and of the Stilson, Microtracker, RKSimulation, MusicDSP, Oberheim and Improved ladders is zero or NaN, whatever settings are made meanwhile, even NaN or infinite ones; with settings in their usual ranges every output is exactly zero. The Krajeski ladder violates this: after setCutoff(NaN) it turns silence into -10^30; with settings in range it gives zero.", "quantifier": "all histories of settings, all run lengths, all states before a reset; every C library whose tanh is odd", "why_tests_cant": "quantifies over all sequences of settings, non-finite ones included, and all run lengths", "anchors": ["include/subcollider/ugens/Lag.h: reset", "include/subcollider/ugens/OnePoleLPF.h: tick", "include/subcollider/ugens/DCBlock.h: reset", "include/subcollider/ugens/LagLinear.h: reset", "include/subcollider/ugens/Tape.h: reset", "include/subcollider/ugens/RLPF.h: reset", "include/subcollider/ugens/Downsampler.h: reset", "include/subcollider/ugens/CombC.h: reset", "include/subcollider/ugens/KrajeskiMoogLadder.h: fclamp", "include/subcollider/ugens/StilsonMoogLadder.h: reset", "include/subcollider/ugens/MicrotrackerMoogLadder.h: reset", "include/subcollider/ugens/RKSimulationMoogLadder.h: reset"]}
{"id": "C119", "title": "A decaying output does not fall silent", "statement": "After any history of calls, let the input of a Lag or OnePoleLPF become zero and stay zero, or let the input of a DCBlock stay at any constant level. One would expect the output to become exactly zero after a while. It does for short time constants: DCBlock and OnePoleLPF with a cutoff of at least an eighth of the sample rate give exact zeros after 278 samples, DCBlock with a cutoff <= 0 and Lag with a lag time <= 0 from the next sample on. It does not for the usual ones: with a cutoff between 2^-18 and 1/10 of the sample rate (DCBlock, OnePoleLPF), or a lag time of 32 to 65536 samples (Lag; the default 0.1 s at 48 kHz is 4800), an output that is not zero already never becomes zero, and ends in one subnormal number (magnitude below 2^-126) that is put out unchanged for ever.", "quantifier": "all histories of calls, all sample rates, all cutoffs and lag times in the ranges given, all levels up to 2^120 resp. 2^126, all run lengths; every C library whose exp is within 2^-23 for arguments <= 0 and within [0,1]", "why_tests_cant": "the outcome is about infinitely many samples, and about every history and setting; the subnormal trap is reached only after thousands of samples of silence", "anchors": ["include/subcollider/ugens/Lag.h: tick", "include/subcollider/ugens/Lag.h: setLagTime", "include/subcollider/ugens/OnePoleLPF.h: tick", "include/subcollider/ugens/DCBlock.h: tick", "include/subcollider/ugens/DCBlock.h: setCutoff"]}
{"id": "C120", "title": "Fresh objects have the documented default settings", "statement": "After init, setting a parameter to its documented default changes nothing, so every later output is the same with and without that call: EnvelopeAR 10/100 ms; EnvelopeADSR 10/100/300 ms and sustain 0.7; oscillators 440 Hz; LFNoise2 1 Hz; ExampleVoice 440 Hz, 10/300 ms, vibrato 0.5 semitones at 5 Hz, pan depth 1, amplitude 0.5; SuperSaw 400 Hz, vibrato 0.3 at 6 Hz, detune 0.2, spread 0.6; Tape bias 0 and gain 1; BufRd looping and linear; XLine 1 to 2 in 1 s; Phasor 1 per sample over [0,1]; all seven Moog ladders 1000 Hz and resonance 0.1 (drive 1, no oversampling); RLPF 440 Hz and 0.707 if the sample rate allows 440 Hz; the mixers Pan2, Balance2 and XFade2 in the centre at level 1 (gains within 2^-25 of 1/sqrt 2, exactly those of a C library that rounds them so); CombC decay 1 s and, for a line of at least 0.2 s, delay 0.2 s. Two expectations fail: a CombC with a shorter line starts with a delay longer than its maximum, and a fresh ExampleVoice does have vibrato although the code comments say it has none (with depth 0 the frequency does stay put for ever).", "quantifier": "all sample rates, all C libraries, all seeds and uninitialised values; all numbers of samples for the voice without vibrato", "why_tests_cant": "equality of the whole state for every sample rate and every C library means that no later call can tell the difference; tests compare a few outputs at one sample rate", "anchors": ["include/subcollider/ugens/EnvelopeAR.h: init", "include/subcollider/ugens/EnvelopeADSR.h: init", "include/subcollider/ExampleVoice.h: init", "include/subcollider/ugens/SuperSaw.h: init", "include/subcollider/ugens/CombC.h: init", "include/subcollider/ugens/RLPF.h: init", "include/subcollider/ugens/StilsonMoogLadder.h: init", "include/subcollider/ugens/MusicDSPMoogLadder.h: init", "include/subcollider/ugens/Pan2.h: setPan", "include/subcollider/ugens/XFade2.h: setLevel"]}
{"id": "C121", "title": "Changing a parameter disturbs nothing else", "statement": "Set a parameter to b, make any other calls (samples, resets, gates, triggers, other setters), then set the parameter to any a and back to b: the object is in exactly the state it would be in without the last two calls, so the signal, the phase and all other parameters are untouched. This holds for the frequency of SinOsc, LFTri, SawDPW and LFNoise2; Lag time; OnePoleLPF and DCBlock cutoff; Tape bias and gain; all EnvelopeAR and EnvelopeADSR parameters; Phasor rate, start, end and reset position; RLPF frequency and resonance; cutoff, resonance, drive and oversampling of the Microtracker, RKSimulation, Improved, Oberheim and MusicDSP ladders; the Krajeski cutoff, and its resonance as long as the cutoff stays; CombC delay and decay; ExampleVoice vibrato depth and rate, pan depth, amplitude, attack and release; SuperSaw frequency, vibrato rate and depth, detune, spread and envelope. For the Stilson ladder's cutoff and resonance it holds whenever the first two calls of the setter are defined. BufRd's three settings are independent. It fails for LagLinear.setTime, which starts a running ramp anew.", "quantifier": "all states, all values a and b including NaN and infinities, all sequences of other calls, all C libraries", "why_tests_cant": "the claim is about equality of states after every sequence of calls and for every pair of values; a test compares a few outputs for a few settings", "anchors": ["include/subcollider/ugens/SinOsc.h: setFrequency", "include/subcollider/ugens/Lag.h: setLagTime", "include/subcollider/ugens/EnvelopeADSR.h: setAttack", "include/subcollider/ugens/Phasor.h: setEnd", "include/subcollider/ugens/BufRd.h: setBuffer", "include/subcollider/ugens/CombC.h: setDelayTime", "include/subcollider/ExampleVoice.h: setVibratoRate", "include/subcollider/ugens/SuperSaw.h: setSpread", "include/subcollider/ugens/LagLinear.h: setTime", "include/subcollider/ugens/StilsonMoogLadder.h: setCutoff"]}
{"id": "C122", "title": "Reset gives back a fresh object with the same settings", "statement": "Take an object in any state, set all its parameters, make any further calls that are not setters, and call reset: the object is in exactly the state of a newly initialised one with the same sample rate on which only these parameters were set. This holds for SinOsc, LFTri, LFNoise2 (with the seed given to reset), Lag, OnePoleLPF, DCBlock, EnvelopeAR, EnvelopeADSR, Phasor, XLine and RLPF; for Tape, SawDPW and CombC it holds after every history that starts at init. SawDPW's reset gives the object initialised with initial phase -1, not the one with the default initial phase 0.", "quantifier": "all states before the parameters are set, all parameter values including NaN and infinities, all sequences of calls, all C libraries", "why_tests_cant": "equality of the whole state after every possible history; a test of reset compares a few output samples after one history and misses a forgotten field that shows only later", "anchors": ["include/subcollider/ugens/SinOsc.h: reset", "include/subcollider/ugens/SawDPW.h: reset", "include/subcollider/ugens/LFNoise2.h: reset", "include/subcollider/ugens/EnvelopeADSR.h: reset", "include/subcollider/ugens/Tape.h: reset", "include/subcollider/ugens/Phasor.h: reset", "include/subcollider/ugens/XLine.h: reset", "include/subcollider/ugens/RLPF.h: reset", "include/subcollider/ugens/CombC.h: reset"]}
