.nia.cache
*.vo
*.vok
*.vos
*.glob
.*.aux
*.aux
