*.vo
*.vok
*.vos
*.glob
*.aux
.lia.cache
.nia.cache
__pycache__/
.nra.cache
