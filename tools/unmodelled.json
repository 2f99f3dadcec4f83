{
"emote/nn/initialization.py": "random initialisation by PyTorch",
"emote/utils/model.py": "random initialisation, conversion to numpy",
"emote/callback.py": "metadata for the metaclass; a superclass call",
"emote/extra/onnx_exporter.py": "reads the version from git",
"tests/gym/hit_the_middle.py": "spaces, seeding and drawing; no behaviour used by training",
"tests/gym/dict_gym_wrapper.py": "plain accessors",
"tests/gym/collector.py": "plain construction and accessors"
}